(** C16: correlations from a covariance matrix. *)
From Coq Require Import Reals Lra Psatz List Arith Lia.
From Verif.Base Require Import Geom Outcome Matrix.
From Verif.Model Require Import Covariance.
From Verif.Spec Require Import CovarianceSpec.
From Verif.Proofs Require Import GeomLemmas ListLemmas.
Import ListNotations.
Local Open Scope R_scope.

Definition safe (s : R) : R := if Rlt_dec s DBL_EPS then 1 else s.
Definition sig (cov : matrix) (i : nat) : R := sqrt (Rabs (ent cov i i)).
Definition corr_val (cov : matrix) (i j : nat) : R :=
  if Nat.eqb i j then (if Nat.eqb i 0 then sig cov i else safe (sig cov i))
  else ent cov i j / (safe (sig cov i) * safe (sig cov j)).

Lemma safe_safe s : safe (safe s) = safe s.
Proof.
  unfold safe. pose proof DBL_EPS_small. destruct (Rlt_dec s DBL_EPS) as [L|L].
  - destruct (Rlt_dec 1 DBL_EPS); lra.
  - destruct (Rlt_dec s DBL_EPS); lra.
Qed.
Lemma safe_pos s : 0 < safe s.
Proof.
  unfold safe. pose proof DBL_EPS_pos. destruct (Rlt_dec s DBL_EPS); lra.
Qed.

(** The value of sigma_i before iteration k of the inner loop. *)
Definition sig_at (cov : matrix) (i k : nat) : R :=
  if Nat.eqb k 0 then sig cov i
  else if andb (Nat.eqb k 1) (Nat.eqb i 0) then sig cov i else safe (sig cov i).

Lemma corr_row_spec cov out i : (i < rows cov)%nat ->
  rows (corr_row cov out i) = rows out /\ cols (corr_row cov out i) = cols out /\
  forall a b, ent (corr_row cov out i) a b =
    if andb (Nat.eqb a i) (Nat.ltb b (rows cov)) then corr_val cov i b else ent out a b.
Proof.
  intros Hi. unfold corr_row. fold (sig cov i).
  set (P := fun (k : nat) (st : R * matrix) =>
    fst st = sig_at cov i k /\ rows (snd st) = rows out /\ cols (snd st) = cols out /\
    forall a b, ent (snd st) a b =
      if andb (Nat.eqb a i) (Nat.ltb b k) then corr_val cov i b else ent out a b).
  assert (H : P (rows cov) (fold_left (corr_step cov i) (seq 0 (rows cov)) (sig cov i, out))).
  { apply fold_left_seq_inv.
    - unfold P, sig_at. cbn. repeat split; intros. rewrite Bool.andb_false_r. reflexivity.
    - intros k [s m] Hk (Hs & Hr & Hc & He). cbn [fst snd] in *. unfold P, corr_step.
      fold (sig cov k). destruct (Nat.eqb_spec i k) as [<-|N]; cbn [fst snd rows cols ent set_ent].
      + split; [ | split; [ exact Hr | split; [ exact Hc | ] ] ].
        * rewrite Hs. unfold sig_at. destruct i as [|i]; [ reflexivity | ].
          cbn. rewrite Bool.andb_false_r. reflexivity.
        * intros a b. rewrite He. destruct (Nat.eqb_spec a i) as [->|Na]; cbn [andb]; [ | reflexivity ].
          destruct (Nat.eqb_spec b i) as [->|Nb].
          -- destruct (Nat.ltb_spec i (S i)); [ | lia ]. unfold corr_val. rewrite Nat.eqb_refl, Hs.
             unfold sig_at. destruct i as [|i]; [ reflexivity | ]. cbn. rewrite ?Nat.eqb_refl, ?Nat.leb_refl, ?Bool.andb_false_r. reflexivity.
          -- destruct (Nat.ltb_spec b i), (Nat.ltb_spec b (S i)); try reflexivity; lia.
      + fold (safe s). fold (safe (sig cov k)).
        assert (Es : safe s = safe (sig cov i)).
        { rewrite Hs. unfold sig_at. destruct (Nat.eqb k 0); [ reflexivity | ].
          destruct (andb _ _); [ reflexivity | apply safe_safe ]. }
        rewrite Es. split; [ | split; [ exact Hr | split; [ exact Hc | ] ] ].
        * unfold sig_at. cbn [Nat.eqb]. destruct (Nat.eqb_spec k 0) as [->|Nk]; cbn.
          -- destruct (Nat.eqb_spec i 0); [ congruence | reflexivity ].
          -- reflexivity.
        * intros a b. rewrite He. destruct (Nat.eqb_spec a i) as [->|Na]; cbn [andb]; [ | reflexivity ].
          destruct (Nat.eqb_spec b k) as [->|Nb].
          -- destruct (Nat.ltb_spec k (S k)); [ | lia ]. unfold corr_val.
             destruct (Nat.eqb_spec i k); [ contradiction | reflexivity ].
          -- destruct (Nat.ltb_spec b k), (Nat.ltb_spec b (S k)); try reflexivity; lia. }
  destruct H as (_ & Hr & Hc & He). auto.
Qed.

Lemma correlations_spec u cov : rows cov = cols cov ->
  exists m, computeCorrelationsFromCovariance u cov = Ok m /\
    rows m = rows cov /\ cols m = rows cov /\
    forall i j, (i < rows cov)%nat -> (j < rows cov)%nat -> ent m i j = corr_val cov i j.
Proof.
  intros Hsq. unfold computeCorrelationsFromCovariance. rewrite Hsq, Nat.eqb_refl. cbn. rewrite <- Hsq.
  eexists; split; [ reflexivity | ].
  set (P := fun (k : nat) m => rows m = rows cov /\ cols m = rows cov /\
    forall i j, (i < k)%nat -> (j < rows cov)%nat -> ent m i j = corr_val cov i j).
  apply (fold_left_seq_inv P).
  - unfold P. cbn. repeat split; intros; lia.
  - intros k m Hk (Hr & Hc & He). destruct (corr_row_spec cov m k Hk) as (Hr' & Hc' & He').
    unfold P. rewrite Hr', Hc'. repeat split; [ exact Hr | exact Hc | ].
    intros i j Hi Hj. rewrite He'. destruct (Nat.eqb_spec i k) as [->|N]; cbn [andb].
    + destruct (Nat.ltb_spec j (rows cov)); [ reflexivity | lia ].
    + apply He; lia.
Qed.

Lemma correlations_throw_iff u cov :
  computeCorrelationsFromCovariance u cov = Throw CovarianceException <-> rows cov <> cols cov.
Proof.
  unfold computeCorrelationsFromCovariance. destruct (Nat.eqb_spec (rows cov) (cols cov)); cbn.
  - split; [ discriminate | contradiction ].
  - split; auto.
Qed.

(** Sums and quadratic forms. *)
Lemma rsum_ext n f g : (forall k, (k < n)%nat -> f k = g k) -> rsum n f = rsum n g.
Proof. induction n as [|n IH]; intros H; cbn; [ reflexivity | ]. rewrite IH, H; auto. Qed.
Lemma rsum_zero n f : (forall k, (k < n)%nat -> f k = 0) -> rsum n f = 0.
Proof. induction n as [|n IH]; intros H; cbn; [ reflexivity | ]. rewrite IH, H; auto; lra. Qed.
Lemma rsum_one n f i : (i < n)%nat -> (forall k, (k < n)%nat -> k <> i -> f k = 0) -> rsum n f = f i.
Proof.
  induction n as [|n IH]; intros Hi H; [ lia | ]. cbn.
  destruct (Nat.eq_dec i n) as [->|N].
  - rewrite rsum_zero by (intros; apply H; lia). lra.
  - rewrite IH by (try lia; intros; apply H; lia). rewrite (H n) by lia. lra.
Qed.
Lemma rsum_two n f i j : (i < n)%nat -> (j < n)%nat -> i <> j ->
  (forall k, (k < n)%nat -> k <> i -> k <> j -> f k = 0) -> rsum n f = f i + f j.
Proof.
  revert i j. induction n as [|n IH]; intros i j Hi Hj N H; [ lia | ]. cbn.
  destruct (Nat.eq_dec i n) as [->|Ni].
  - rewrite (rsum_one n f j) by (try lia; intros; apply H; lia). lra.
  - destruct (Nat.eq_dec j n) as [->|Nj].
    + rewrite (rsum_one n f i) by (try lia; intros; apply H; lia). lra.
    + rewrite (IH i j) by (try lia; intros; apply H; lia). rewrite (H n) by lia. lra.
Qed.

Lemma quad_two n C i j a b : (i < n)%nat -> (j < n)%nat -> i <> j ->
  quad_form n C (fun k => if Nat.eqb k i then a else if Nat.eqb k j then b else 0) =
  a * a * C i i + a * b * C i j + b * a * C j i + b * b * C j j.
Proof.
  intros Hi Hj N. 
  set (x := fun k => if Nat.eqb k i then a else if Nat.eqb k j then b else 0). unfold quad_form.
  assert (xi : x i = a) by (unfold x; rewrite Nat.eqb_refl; reflexivity).
  assert (xj : x j = b).
  { unfold x. destruct (Nat.eqb_spec j i); [ congruence | ]. rewrite Nat.eqb_refl. reflexivity. }
  assert (xo : forall k, k <> i -> k <> j -> x k = 0).
  { intros k H1 H2. unfold x. destruct (Nat.eqb_spec k i); [ congruence | ].
    destruct (Nat.eqb_spec k j); [ congruence | reflexivity ]. }
  rewrite (rsum_two n _ i j) by (try assumption; intros k Hk H1 H2;
    apply rsum_zero; intros l _; rewrite (xo k H1 H2); ring).
  rewrite (rsum_two n (fun l => x i * C i l * x l) i j) by (try assumption; intros k Hk H1 H2; rewrite (xo k H1 H2); ring).
  rewrite (rsum_two n (fun l => x j * C j l * x l) i j) by (try assumption; intros k Hk H1 H2; rewrite (xo k H1 H2); ring).
  rewrite xi, xj. ring.
Qed.
Lemma quad_one n C i a : (i < n)%nat ->
  quad_form n C (fun k => if Nat.eqb k i then a else 0) = a * a * C i i.
Proof.
  intros Hi. 
  set (x := fun k => if Nat.eqb k i then a else 0). unfold quad_form.
  assert (xi : x i = a) by (unfold x; rewrite Nat.eqb_refl; reflexivity).
  assert (xo : forall k, k <> i -> x k = 0).
  { intros k H1. unfold x. destruct (Nat.eqb_spec k i); [ congruence | reflexivity ]. }
  rewrite (rsum_one n _ i) by (try assumption; intros k Hk H1;
    apply rsum_zero; intros l _; rewrite (xo k H1); ring).
  rewrite (rsum_one n _ i) by (try assumption; intros k Hk H1; rewrite (xo k H1); ring).
  rewrite xi. ring.
Qed.

Lemma cov_diag_nonneg m i : covariance_like m -> (i < rows m)%nat -> 0 <= ent m i i.
Proof.
  intros (_ & _ & P) Hi. specialize (P (fun k => if Nat.eqb k i then 1 else 0)).
  rewrite quad_one in P by exact Hi. lra.
Qed.
Lemma cov_cauchy m i j : covariance_like m -> (i < rows m)%nat -> (j < rows m)%nat ->
  ent m i j * ent m i j <= ent m i i * ent m j j.
Proof.
  intros H Hi Hj. destruct (Nat.eq_dec i j) as [->|N]; [ lra | ].
  pose proof (cov_diag_nonneg m i H Hi). pose proof (cov_diag_nonneg m j H Hj).
  destruct H as (_ & Sy & P).
  assert (Q : forall a b, 0 <= a * a * ent m i i + 2 * a * b * ent m i j + b * b * ent m j j).
  { intros a b. specialize (P (fun k => if Nat.eqb k i then a else if Nat.eqb k j then b else 0)).
    rewrite quad_two in P by assumption. rewrite (Sy j i) in P by assumption. lra. }
  set (p := ent m i i) in *. set (q := ent m j j) in *. set (c := ent m i j) in *.
  destruct (Rle_lt_or_eq_dec 0 p) as [Hp|Hp]; [ lra | | ].
  - pose proof (Q (- c) p). assert (0 <= p * (p * q - c * c)) by nra. nra.
  - rewrite <- Hp in *. assert (c = 0); [ | subst; nra ].
    pose proof (Q (- (q + 1) / (2 * c)) 1) as Q1. destruct (Req_dec c 0) as [?|Nc]; [ assumption | ].
    exfalso. replace (2 * (- (q + 1) / (2 * c)) * 1 * c) with (- (q + 1)) in Q1 by (field; assumption).
    lra.
Qed.

Lemma sig_stdev m i : covariance_like m -> (i < rows m)%nat -> sig m i = stdev m i.
Proof.
  intros H Hi. unfold sig, stdev. rewrite Rabs_pos_eq; [ reflexivity | apply cov_diag_nonneg; assumption ].
Qed.
Lemma cov_abs_le m i j : covariance_like m -> (i < rows m)%nat -> (j < rows m)%nat ->
  Rabs (ent m i j) <= stdev m i * stdev m j.
Proof.
  intros H Hi Hj. unfold stdev. rewrite <- sqrt_mult_alt by (apply cov_diag_nonneg; assumption).
  rewrite <- sqrt_Rsqr_abs. apply sqrt_le_1_alt. unfold Rsqr. apply cov_cauchy; assumption.
Qed.

Lemma corr_bound m i j : covariance_like m -> (i < rows m)%nat -> (j < rows m)%nat ->
  Rabs (ent m i j / (safe (sig m i) * safe (sig m j))) <= 1.
Proof.
  intros H Hi Hj. pose proof (safe_pos (sig m i)) as S1. pose proof (safe_pos (sig m j)) as S2.
  assert (P : 0 < safe (sig m i) * safe (sig m j)) by (apply Rmult_lt_0_compat; assumption).
  unfold Rdiv. rewrite Rabs_mult, Rabs_inv, (Rabs_pos_eq (_ * _)) by lra.
  apply (Rmult_le_reg_r (safe (sig m i) * safe (sig m j))); [ exact P | ].
  rewrite Rmult_assoc, Rinv_l, Rmult_1_r, Rmult_1_l by lra.
  pose proof (cov_abs_le m i j H Hi Hj) as B. rewrite <- !sig_stdev in B by assumption.
  pose proof (sqrt_pos (Rabs (ent m i i))). pose proof (sqrt_pos (Rabs (ent m j j))).
  fold (sig m i) in *. fold (sig m j) in *. pose proof DBL_EPS_small.
  assert (sig m i <= safe (sig m i)) by (unfold safe; destruct (Rlt_dec (sig m i) DBL_EPS); lra).
  assert (sig m j <= safe (sig m j)) by (unfold safe; destruct (Rlt_dec (sig m j) DBL_EPS); lra).
  eapply Rle_trans; [ exact B | ]. apply Rmult_le_compat; lra.
Qed.

(** Summary lemmas used in the property file. *)
Lemma corr_offdiag_all u m out : covariance_like m -> computeCorrelationsFromCovariance u m = Ok out ->
  forall i j, (i < rows m)%nat -> (j < rows m)%nat -> i <> j ->
    ent out i j = ent out j i /\ Rabs (ent out i j) <= 1.
Proof.
  intros H E i j Hi Hj N. destruct (correlations_spec u m (proj1 H)) as (out' & E' & _ & _ & He).
  rewrite E in E'. injection E' as <-. rewrite !He by assumption. unfold corr_val.
  destruct (Nat.eqb_spec i j); [ contradiction | ]. destruct (Nat.eqb_spec j i); [ congruence | ].
  split; [ | apply corr_bound; assumption ].
  destruct H as (_ & Sy & _). rewrite (Sy i j) by assumption. rewrite Rmult_comm. reflexivity.
Qed.

Lemma corr_exact u m out : covariance_like m -> computeCorrelationsFromCovariance u m = Ok out ->
  rows out = rows m /\ cols out = rows m /\
  forall i j, (i < rows m)%nat -> (j < rows m)%nat ->
    DBL_EPS <= stdev m i -> DBL_EPS <= stdev m j ->
    ent out i j = if Nat.eqb i j then stdev m i else ent m i j / (stdev m i * stdev m j).
Proof.
  intros H E. destruct (correlations_spec u m (proj1 H)) as (out' & E' & Hr & Hc & He).
  rewrite E in E'. injection E' as <-. split; [ exact Hr | split; [ exact Hc | ] ].
  intros i j Hi Hj Si Sj. rewrite He by assumption. unfold corr_val.
  rewrite !sig_stdev by assumption. unfold safe.
  destruct (Rlt_dec (stdev m i) DBL_EPS); [ lra | ]. destruct (Rlt_dec (stdev m j) DBL_EPS); [ lra | ].
  destruct (Nat.eqb i j); [ destruct (Nat.eqb i 0); reflexivity | reflexivity ].
Qed.

Lemma corr_diag_small u m out : covariance_like m -> computeCorrelationsFromCovariance u m = Ok out ->
  forall i, (i < rows m)%nat -> stdev m i < DBL_EPS ->
    ent out i i = if Nat.eqb i 0 then stdev m i else 1.
Proof.
  intros H E i Hi S. destruct (correlations_spec u m (proj1 H)) as (out' & E' & Hr & Hc & He).
  rewrite E in E'. injection E' as <-. rewrite He by assumption. unfold corr_val. rewrite Nat.eqb_refl.
  rewrite sig_stdev by assumption. unfold safe. destruct (Rlt_dec (stdev m i) DBL_EPS); [ reflexivity | lra ].
Qed.

Lemma covariance_like_diag n d : (forall i, (i < n)%nat -> 0 <= d i) ->
  covariance_like (Mat n n (fun i j => if Nat.eqb i j then d i else 0)).
Proof.
  intros Hd. unfold covariance_like; cbn. split; [ reflexivity | split ].
  - intros i j _ _. destruct (Nat.eqb_spec i j) as [->|N]; [ rewrite Nat.eqb_refl; reflexivity | ].
    destruct (Nat.eqb_spec j i); [ congruence | reflexivity ].
  - intros x. unfold quad_form.
    assert (G : forall k f, (forall i, (i < k)%nat -> 0 <= f i) -> 0 <= rsum k f).
    { induction k as [|k IH]; intros f Hf; cbn; [ lra | ].
      pose proof (IH f ltac:(intros; apply Hf; lia)). pose proof (Hf k ltac:(lia)). lra. }
    apply G. intros i Hi. rewrite (rsum_one n _ i) by (first [ assumption | intros k _ Hk; destruct (Nat.eqb_spec i k); [ congruence | ring ] ]).
    rewrite Nat.eqb_refl. specialize (Hd i Hi). nra.
Qed.

Lemma corr_diag_refuted u : exists m out i, covariance_like m /\
  computeCorrelationsFromCovariance u m = Ok out /\ (i < rows m)%nat /\ ent out i i <> stdev m i.
Proof.
  pose (m := Mat 2 2 (fun i j => if Nat.eqb i j then 0 else 0)).
  assert (H : covariance_like m) by (apply (covariance_like_diag 2 (fun _ => 0)); intros; lra).
  destruct (correlations_spec u m (proj1 H)) as (out & E & _).
  exists m, out, 1%nat. split; [ exact H | split; [ exact E | split; [ cbn; lia | ] ] ].
  assert (S : stdev m 1 = 0) by (unfold stdev, m; cbn; apply sqrt_0).
  rewrite (corr_diag_small u m out H E 1%nat); [ | cbn; lia | rewrite S; apply DBL_EPS_pos ].
  cbn. rewrite S. lra.
Qed.

(** A 2x2 covariance matrix with correlation 1/2. *)
Definition ex_cov : matrix :=
  Mat 2 2 (fun i j => match i, j with 0%nat, 0%nat => 4 | 1%nat, 1%nat => 9 | _, _ => 3 end).
Lemma ex_cov_like : covariance_like ex_cov.
Proof.
  unfold covariance_like; cbn. split; [ reflexivity | split ].
  - intros i j Hi Hj. destruct i as [|[|i]], j as [|[|j]]; try reflexivity; lia.
  - intros x. unfold quad_form; cbn.
    pose proof (Rle_0_sqr (4 * x 0%nat + 3 * x 1%nat)). pose proof (Rle_0_sqr (x 1%nat)).
    unfold Rsqr in *. lra.
Qed.
Lemma ex_cov_corr u : exists out, computeCorrelationsFromCovariance u ex_cov = Ok out /\
  ent out 0 0 = 2 /\ ent out 1 1 = 3 /\ ent out 0 1 = 1 / 2 /\ ent out 1 0 = 1 / 2.
Proof.
  destruct (correlations_spec u ex_cov (proj1 ex_cov_like)) as (out & E & _). exists out.
  split; [ exact E | ]. destruct (corr_exact u ex_cov out ex_cov_like E) as (_ & _ & He).
  assert (S0 : stdev ex_cov 0 = 2).
  { unfold stdev, ex_cov; cbn. replace 4 with (2 * 2) by ring. apply sqrt_square. lra. }
  assert (S1 : stdev ex_cov 1 = 3).
  { unfold stdev, ex_cov; cbn. replace 9 with (3 * 3) by ring. apply sqrt_square. lra. }
  pose proof DBL_EPS_small.
  repeat split; rewrite He by (rewrite ?S0, ?S1; cbn; try lia; lra); cbn [Nat.eqb];
    rewrite ?S0, ?S1; unfold ex_cov; cbn; lra.
Qed.
