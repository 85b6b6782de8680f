(** Target observations of several cameras. *)
From Coq Require Import List Arith ZArith Lia Bool.
From Verif.Base Require Import Outcome.
From Verif.Model Require Import DataSet CorrDataSet.
From Verif.Spec Require Import CorrDataSpec.
From Verif.Proofs Require Import ListLemmas DataSetProofs.
Import ListNotations.

Lemma entry2_same {A} (m : nat -> nat -> A) r c a : entry2 m r c a r c = a.
Proof. unfold entry2. rewrite !Nat.eqb_refl. reflexivity. Qed.
Lemma entry2_other {A} (m : nat -> nat -> A) r c a r' c' : (r', c') <> (r, c) -> entry2 m r c a r' c' = m r' c'.
Proof. intros H. unfold entry2. destruct (Nat.eqb_spec r' r), (Nat.eqb_spec c' c); cbn; congruence. Qed.

Section CorrData.
  Context {image features C : Type} (find : image -> res features) (none : features -> bool)
          (create : features -> res C) (show : image -> features -> res unit) (debug : bool).
  Notation found_as := (CorrDataSpec.found_as find none create show debug).
  Notation found := (CorrDataSpec.found find none create show debug).
  Notation observe := (CorrDataSet.observe find none create show debug).

  Lemma found_as_unique img k k' : found_as img k -> found_as img k' -> k = k'.
  Proof. intros (f & A & _ & B & _) (g & A' & _ & B' & _). rewrite A in A'. injection A' as <-. congruence. Qed.

  (** What one image changes. *)
  Definition result_at (d : corr_data C) (c i : nat) (img : image) : Prop :=
    (found img /\ cd_mask d c i = 1 \/ ~ found img /\ cd_mask d c i = 0) /\ (forall k, found_as img k -> cd_sets d c i = k).
  Definition same_elsewhere (d d' : corr_data C) (P : nat -> nat -> Prop) : Prop :=
    cd_rows d' = cd_rows d /\ cd_cols d' = cd_cols d /\ forall r c, ~ P r c -> cd_mask d' r c = cd_mask d r c /\ cd_sets d' r c = cd_sets d r c.

  Lemma std_all e : e <> XmlRpcException -> std_exception e = true.
  Proof. intros N. destruct e; try reflexivity. destruct (N eq_refl). Qed.

  Hypothesis B : all_behaved find create show.
  Lemma observe_ok d c i img : i < cd_cols d -> exists d', observe d c i img = Ok d' /\ result_at d' c i img /\ same_elsewhere d d' (fun r c' => r = c /\ c' = i).
  Proof.
    intros L. unfold CorrDataSet.observe. rewrite (proj2 (Nat.leb_gt _ _) L). destruct B as (Bf & Bc & Bs). specialize (Bf img).
    assert (No : forall d1, cd_rows d1 = cd_rows d -> cd_cols d1 = cd_cols d -> (forall r c', ~ (r = c /\ c' = i) -> cd_mask d1 r c' = cd_mask d r c' /\ cd_sets d1 r c' = cd_sets d r c') -> ~ found img ->
      exists d', Ok (set_mask d1 c i 0) = Ok d' /\ result_at d' c i img /\ same_elsewhere d d' (fun r c' => r = c /\ c' = i)).
    { intros d1 R Cl E N. exists (set_mask d1 c i 0). split; [ reflexivity | ]. split.
      - split; [ right; split; [ exact N | apply entry2_same ] | ]. intros k K. exfalso. apply N. exists k. exact K.
      - split; [ exact R | split; [ exact Cl | ] ]. intros r c' H. cbn. rewrite entry2_other by (intros [= -> ->]; apply H; auto). apply E, H. }
    assert (E1 : forall r c', ~ (r = c /\ c' = i) -> cd_mask (set_mask d c i 1) r c' = cd_mask d r c' /\ cd_sets (set_mask d c i 1) r c' = cd_sets d r c').
    { intros r c' H. cbn. rewrite entry2_other by (intros [= -> ->]; apply H; auto). auto. }
    assert (E2 : forall k r c', ~ (r = c /\ c' = i) -> cd_mask (set_corr (set_mask d c i 1) c i k) r c' = cd_mask d r c' /\ cd_sets (set_corr (set_mask d c i 1) c i k) r c' = cd_sets d r c').
    { intros k r c' H. cbn. rewrite !entry2_other by (intros [= -> ->]; apply H; auto). auto. }
    assert (Yes : forall f k, find img = Ok f -> none f = false -> create f = Ok k -> (debug = true -> show img f = Ok tt) ->
      exists d', Ok (set_corr (set_mask d c i 1) c i k) = Ok d' /\ result_at d' c i img /\ same_elsewhere d d' (fun r c' => r = c /\ c' = i)).
    { intros f k A1 A2 A3 A4. assert (K : found_as img k) by (exists f; auto). eexists. split; [ reflexivity | ]. split; [ | split; [ reflexivity | split; [ reflexivity | apply E2 ] ] ].
      split; [ left; split; [ exists k; exact K | cbn; apply entry2_same ] | ]. intros k' K'. cbn. rewrite entry2_same. apply (found_as_unique img k k' K K'). }
    destruct (find img) as [f | e | ] eqn:Ef; cbn [bind]; [ | | contradiction ].
    - destruct (none f) eqn:En.
      + cbn [std_exception]. apply No; [ reflexivity | reflexivity | exact E1 | ]. intros (k & g & A & N & _). rewrite Ef in A. injection A as <-. congruence.
      + specialize (Bc f). destruct (create f) as [k | e | ] eqn:Ec; cbn [bind]; [ | | contradiction ].
        * assert (D : debug = true \/ debug = false) by (destruct debug; auto). destruct D as [D | D]; rewrite D; [ | apply (Yes f k eq_refl En Ec); congruence ].
          specialize (Bs img f). destruct (show img f) as [[] | e | ] eqn:Es; [ apply (Yes f k eq_refl En Ec); intros _; exact Es | | contradiction ].
          cbn in Bs. rewrite (std_all e Bs). apply No; [ reflexivity | reflexivity | apply E2 | ]. intros (k' & g & A & _ & _ & S). rewrite Ef in A. injection A as <-. specialize (S D). congruence.
        * cbn in Bc. rewrite (std_all e Bc). apply No; [ reflexivity | reflexivity | exact E1 | ]. intros (k' & g & A & _ & K & _). rewrite Ef in A. injection A as <-. congruence.
    - cbn in Bf. rewrite (std_all e Bf). apply No; [ reflexivity | reflexivity | exact E1 | ]. intros (k' & g & A & _). congruence.
  Qed.

  (** One camera. *)
  Definition camera_loop (d : corr_data C) (c : nat) (images : list image) (k : nat) :=
    foldM (fun d q => observe d c (fst q) (snd q)) (combine (seq k (length images)) images) d.
  Lemma camera_ok images : forall d c k, k + length images <= cd_cols d ->
    exists d', camera_loop d c images k = Ok d' /\ (forall i img, nth_error images i = Some img -> result_at d' c (k + i) img) /\
      same_elsewhere d d' (fun r c' => r = c /\ k <= c' < k + length images).
  Proof.
    induction images as [ | img images IH]; intros d c k L.
    - exists d. split; [ reflexivity | ]. split; [ intros [ | i]; discriminate | ]. split; [ reflexivity | split; [ reflexivity | auto ] ].
    - cbn [length] in L. unfold camera_loop. cbn [length seq combine foldM fst snd]. destruct (observe_ok d c k img) as (d1 & E & R & (S1 & S2 & S3)); [ lia | ]. rewrite E. cbn [bind].
      destruct (IH d1 c (S k)) as (d2 & E2 & R2 & (S4 & S5 & S6)); [ lia | ]. exists d2. split; [ exact E2 | ]. split.
      + intros [ | i] a H; [ | replace (k + S i) with (S k + i) by lia; apply R2, H ]. injection H as <-. rewrite Nat.add_0_r.
        destruct (S6 c k) as [M Q]; [ lia | ]. destruct R as [R T]. split; [ rewrite M; exact R | intros x X; rewrite Q; apply T, X ].
      + split; [ congruence | split; [ congruence | ] ]. intros r c' H. cbn [length] in H. destruct (S6 r c') as [M Q]; [ lia | ]. destruct (S3 r c') as [M' Q']; [ lia | ]. split; congruence.
  Qed.
  Lemma camera_long images : forall d c k, cd_cols d < k + length images -> k <= cd_cols d -> camera_loop d c images k = UB.
  Proof.
    induction images as [ | img images IH]; intros d c k L K; cbn [length] in L; [ lia | ]. unfold camera_loop. cbn [length seq combine foldM fst snd].
    destruct (Nat.eq_dec k (cd_cols d)) as [E | N].
    - unfold CorrDataSet.observe. rewrite (proj2 (Nat.leb_le (cd_cols d) k)) by lia. reflexivity.
    - destruct (observe_ok d c k img) as (d1 & E & _ & (_ & S2 & _)); [ lia | ]. rewrite E. cbn [bind]. apply (IH d1 c (S k)); lia.
  Qed.

  (** All cameras. *)
  Definition cameras_loop (d : corr_data C) (data : list (data_set image)) (k : nat) :=
    foldM (fun d p => foldM (fun d q => observe d (fst p) (fst q) (snd q)) (combine (seq 0 (length (ds_images (snd p)))) (ds_images (snd p))) d)
      (combine (seq k (length data)) data) d.
  Lemma cameras_ok data : forall d k, (forall s, In s data -> length (ds_images s) <= cd_cols d) ->
    exists d', cameras_loop d data k = Ok d' /\ (forall c i img, taken data c i img -> result_at d' (k + c) i img) /\
      same_elsewhere d d' (fun r i => exists c img, r = k + c /\ taken data c i img).
  Proof.
    induction data as [ | s data IH]; intros d k L.
    - exists d. split; [ reflexivity | ]. split; [ intros [ | c] i img (x & H & _); discriminate | ]. split; [ reflexivity | split; [ reflexivity | auto ] ].
    - unfold cameras_loop. cbn [length seq combine foldM fst snd]. destruct (camera_ok (ds_images s) d k 0) as (d1 & E & R & (S1 & S2 & S3)); [ cbn; apply L; left; reflexivity | ].
      unfold camera_loop in E. rewrite E. cbn [bind].
      destruct (IH d1 (S k)) as (d2 & E2 & R2 & (S4 & S5 & S6)); [ intros x Hx; rewrite S2; apply L; right; exact Hx | ]. exists d2. split; [ exact E2 | ]. split.
      + intros [ | c] i img (x & H & I).
        * cbn in H. injection H as <-. rewrite Nat.add_0_r. specialize (R i img I). cbn in R. destruct (S6 k i) as [M Q]; [ intros (c & img' & Hc & _); lia | ].
          destruct R as [R T]. split; [ rewrite M; exact R | intros y Y; rewrite Q; apply T, Y ].
        * replace (k + S c) with (S k + c) by lia. apply R2. exists x. split; [ exact H | exact I ].
      + split; [ congruence | split; [ congruence | ] ]. intros r i H.
        destruct (S6 r i) as [M Q]; [ intros (c & img & -> & (x & X & I)); apply H; exists (S c), img; split; [ lia | exists x; auto ] | ].
        destruct (S3 r i) as [M' Q']; [ intros [-> Hi]; cbn in Hi; apply H; destruct (nth_error (ds_images s) i) as [img | ] eqn:Ei; [ exists 0, img; split; [ lia | exists s; auto ] | apply nth_error_None in Ei; lia ] | ].
        split; congruence.
  Qed.
  Lemma cameras_long data : forall d k, (exists s, In s data /\ cd_cols d < length (ds_images s)) -> cameras_loop d data k = UB.
  Proof.
    induction data as [ | s data IH]; intros d k (x & Hx & L); [ contradiction | ]. unfold cameras_loop. cbn [length seq combine foldM fst snd].
    destruct (Nat.le_gt_cases (length (ds_images s)) (cd_cols d)) as [C1 | C1].
    - destruct (camera_ok (ds_images s) d k 0) as (d1 & E & _ & (_ & S2 & _)); [ exact C1 | ]. unfold camera_loop in E. rewrite E. cbn [bind].
      destruct Hx as [-> | Hx]; [ lia | ]. apply (IH d1 (S k)). exists x. split; [ exact Hx | rewrite S2; exact L ].
    - pose proof (camera_long (ds_images s) d k 0 C1 (Nat.le_0_l _)) as E. unfold camera_loop in E. rewrite E. reflexivity.
  Qed.

  Notation construct := (construct find none create show debug).
  Definition width (data : list (data_set image)) : nat := match data with [] => 0 | s :: _ => length (ds_images s) end.
  Lemma construct_loop u e s data : construct u e (s :: data) = cameras_loop (CD (length (s :: data)) (length (ds_images s)) (fun _ _ => e) u) (s :: data) 0.
  Proof. reflexivity. Qed.
  Lemma construct_empty u e : construct u e [] = UB.
  Proof. reflexivity. Qed.
  Lemma construct_long u e data : (exists s, In s data /\ width data < length (ds_images s)) -> construct u e data = UB.
  Proof. intros H. destruct data as [ | s data]; [ reflexivity | ]. rewrite construct_loop. apply cameras_long. exact H. Qed.
  Lemma construct_ok u e data : data <> [] -> (forall s, In s data -> length (ds_images s) <= width data) ->
    exists d, construct u e data = Ok d /\ cd_rows d = length data /\ cd_cols d = width data /\
      (forall c i img, taken data c i img -> result_at d c i img) /\ (forall c i, (forall img, ~ taken data c i img) -> cd_mask d c i = u c i /\ cd_sets d c i = e).
  Proof.
    intros N L. destruct data as [ | s data]; [ contradiction | ]. rewrite construct_loop. destruct (cameras_ok (s :: data) (CD (length (s :: data)) (length (ds_images s)) (fun _ _ => e) u) 0 L) as (d & E & R & (S1 & S2 & S3)).
    exists d. split; [ exact E | ]. split; [ exact S1 | split; [ exact S2 | split; [ exact R | ] ] ]. intros c i H. apply S3. intros (c' & img & -> & T). exact (H img T).
  Qed.

  (** ** Counting *)

  Lemma count_sum {A} (P : A -> Prop) (l : list A) (v : A -> nat) : (forall a, In a l -> P a /\ v a = 1 \/ ~ P a /\ v a = 0) -> count P l (fold_right Nat.add 0 (map v l)).
  Proof.
    induction l as [ | a l IH]; intros H; [ constructor | ]. cbn. specialize (IH (fun b Hb => H b (or_intror Hb))). destruct (H a (or_introl eq_refl)) as [[Y ->] | [N ->]]; [ apply count_yes | apply count_no ]; assumption.
  Qed.
  Lemma count_le {A} (P : A -> Prop) l n : count P l n -> n <= length l.
  Proof. induction 1; cbn; lia. Qed.
  Lemma usum_small l : fold_right Nat.add 0 l < Z.to_nat (2 ^ 32) -> usum l = fold_right Nat.add 0 l.
  Proof. intros H. unfold usum. rewrite Z.mod_small by lia. apply Nat2Z.id. Qed.
  (** Sums over indices are sums over elements. *)
  Lemma sum_nth {A} (l : list A) (g : nat -> nat) (P : A -> Prop) : forall k, (forall i a, nth_error l i = Some a -> P a /\ g (k + i) = 1 \/ ~ P a /\ g (k + i) = 0) ->
    count P l (fold_right Nat.add 0 (map g (seq k (length l)))).
  Proof.
    induction l as [ | a l IH]; intros k H; [ constructor | ]. cbn [length seq map fold_right].
    assert (R : count P l (fold_right Nat.add 0 (map g (seq (S k) (length l))))). { apply IH. intros i b Hb. replace (S k + i) with (k + S i) by lia. apply H. exact Hb. }
    specialize (H 0 a eq_refl). rewrite Nat.add_0_r in H. destruct H as [[Y ->] | [N ->]]; [ apply count_yes | apply count_no ]; assumption.
  Qed.

  Lemma even_ok u e data n : data <> [] -> (forall s, In s data -> length (ds_images s) = n) ->
    exists d, construct u e data = Ok d /\ getCameraCount d = length data /\ getImageCount d = n /\
      (forall c i img, taken data c i img -> exists b, foundCorrespondence d c i = Ok b /\ (b = true <-> found img) /\ forall k, found_as img k -> getCorrespondenceSet d c i = Ok k) /\
      (forall c s, nth_error data c = Some s -> (Z.of_nat n < 2 ^ 32)%Z -> exists m, getCameraImageCount d c = Ok m /\ count found (ds_images s) m) /\
      (forall i, i < n -> (Z.of_nat (length data) < 2 ^ 32)%Z -> exists m, getImageCameraCount d i = Ok m /\ count (fun s => exists img, nth_error (ds_images s) i = Some img /\ found img) data m).
  Proof.
    intros N H. assert (W : width data = n) by (destruct data as [ | s data]; [ contradiction | apply H; left; reflexivity ]).
    destruct (construct_ok u e data N) as (d & E & R1 & R2 & R3 & _); [ intros s Hs; rewrite (H s Hs); lia | ]. rewrite W in R2. exists d. split; [ exact E | ]. split; [ exact R1 | split; [ exact R2 | ] ].
    assert (In1 : forall c i img, taken data c i img -> inside d c i = true).
    { intros c i img (s & A & I). unfold inside. apply andb_true_iff. split; apply Nat.ltb_lt; [ rewrite R1; apply nth_error_Some; congruence | ]. rewrite R2, <- (H s (nth_error_In _ _ A)). apply nth_error_Some. congruence. }
    split; [ | split ].
    - intros c i img T. unfold foundCorrespondence, getCorrespondenceSet. rewrite (In1 c i img T). eexists. split; [ reflexivity | ]. destruct (R3 c i img T) as [M S]. split.
      + destruct M as [[F ->] | [F ->]]; cbn; split; intros G; auto; try discriminate; contradiction.
      + intros k K. rewrite (S k K). reflexivity.
    - intros c s A B32. unfold getCameraImageCount. rewrite (proj2 (Nat.ltb_lt c (cd_rows d))) by (rewrite R1; apply nth_error_Some; congruence).
      assert (Cn : count found (ds_images s) (fold_right Nat.add 0 (map (fun i => cd_mask d c i) (seq 0 (cd_cols d))))).
      { rewrite R2, <- (H s (nth_error_In _ _ A)). apply sum_nth. intros i img I. apply (R3 c i img). exists s. auto. }
      eexists. split; [ reflexivity | ]. rewrite usum_small; [ exact Cn | ]. apply count_le in Cn. rewrite (H s (nth_error_In _ _ A)) in Cn. lia.
    - intros i Hi B32. unfold getImageCameraCount. rewrite (proj2 (Nat.ltb_lt i (cd_cols d))) by lia.
      assert (Cn : count (fun s => exists img, nth_error (ds_images s) i = Some img /\ found img) data (fold_right Nat.add 0 (map (fun r => cd_mask d r i) (seq 0 (cd_rows d))))).
      { rewrite R1. apply sum_nth. intros c s A. destruct (nth_error (ds_images s) i) as [img | ] eqn:I; [ | apply nth_error_None in I; rewrite (H s (nth_error_In _ _ A)) in I; lia ].
        assert (T : taken data c i img) by (exists s; auto). destruct (R3 c i img T) as [[[F M] | [F M]] _]; [ left | right ]; (split; [ | exact M ]); [ eauto | ]. intros (x & [= <-] & G). exact (F G). }
      eexists. split; [ reflexivity | ]. rewrite usum_small; [ exact Cn | ]. apply count_le in Cn. lia.
  Qed.
  Lemma short_garbage u e data c i s : data <> [] -> (forall s, In s data -> length (ds_images s) <= width data) -> nth_error data c = Some s -> length (ds_images s) <= i < width data ->
    exists d, construct u e data = Ok d /\ foundCorrespondence d c i = Ok (negb (Nat.eqb (u c i) 0)).
  Proof.
    intros N L A I. destruct (construct_ok u e data N L) as (d & E & R1 & R2 & _ & R4). exists d. split; [ exact E | ]. unfold foundCorrespondence, inside. rewrite R1, R2.
    rewrite (proj2 (Nat.ltb_lt c (length data))) by (apply nth_error_Some; congruence). rewrite (proj2 (Nat.ltb_lt i (width data))) by lia. cbn [andb].
    destruct (R4 c i) as [-> _]; [ | reflexivity ]. intros img (x & X & Y). rewrite A in X. injection X as <-. apply nth_error_None in Y || (assert (i < length (ds_images s)) by (apply nth_error_Some; congruence); lia).
  Qed.
End CorrData.

Section Uneven.
  Context {image features C : Type} (find : image -> res features) (none : features -> bool)
          (create : features -> res C) (show : image -> features -> res unit) (debug : bool).
  Lemma long_camera u e data first c s : all_behaved find create show -> nth_error data 0 = Some first -> nth_error data c = Some s -> length (ds_images first) < length (ds_images s) ->
    construct find none create show debug u e data = UB.
  Proof.
    intros B F A L. apply (construct_long find none create show debug B). exists s. split; [ apply (nth_error_In _ _ A) | ]. destruct data as [ | x data]; [ discriminate | ]. injection F as ->. exact L.
  Qed.
  Lemma short_camera u e data first c i s : all_behaved find create show -> nth_error data 0 = Some first -> (forall t, In t data -> length (ds_images t) <= length (ds_images first)) ->
    nth_error data c = Some s -> length (ds_images s) <= i < length (ds_images first) ->
    exists d, construct find none create show debug u e data = Ok d /\ foundCorrespondence d c i = Ok (negb (Nat.eqb (u c i) 0)).
  Proof.
    intros B F L A I. destruct data as [ | x data]; [ discriminate | ]. injection F as ->. apply (short_garbage find none create show debug B u e (first :: data) c i s); [ discriminate | exact L | exact A | exact I ].
  Qed.
End Uneven.

(** Images are true if the target can be seen. *)
Definition see (b : bool) : res bool := Ok b.
Definition nothing (b : bool) : bool := negb b.
Definition keep (b : bool) : res bool := Ok b.
Definition shown (b c : bool) : res unit := Ok tt.
Lemma see_behaved : all_behaved see keep shown.
Proof. split; [ | split ]; intros; exact I. Qed.
Lemma uneven_refuted : ~ (forall image features C (find : image -> res features) none (create : features -> res C) show debug u e data,
  all_behaved find create show -> data <> [] -> exists d, construct find none create show debug u e data = Ok d /\
    forall c s, nth_error data c = Some s -> exists m, getCameraImageCount d c = Ok m /\ count (found find none create show debug) (ds_images s) m).
Proof.
  intros H. destruct (H bool bool bool see nothing keep shown false (fun _ _ => 1) false [DS [true] []; DS [] []] see_behaved) as (d & E & A); [ discriminate | ].
  cbv in E. injection E as <-. destruct (A 1 (DS [] []) eq_refl) as (m & M & Cn). cbv in M. injection M as <-. inversion Cn.
Qed.
Lemma even_example : exists d, construct see nothing keep shown true (fun _ _ => 7) false [DS [true; false; true] []; DS [false; false; true] []] = Ok d /\
  map (getCameraImageCount d) [0; 1] = [Ok 2; Ok 1] /\ map (getImageCameraCount d) [0; 1; 2] = [Ok 1; Ok 0; Ok 2].
Proof. eexists. split; [ reflexivity | split; reflexivity ]. Qed.
