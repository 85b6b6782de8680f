(** C21. *)
From Coq Require Import Reals Lra Arith Lia List.
From Verif.Base Require Import Geom Outcome Matrix.
From Verif.Model Require Import MaxLikelihood.
From Verif.Spec Require Import KinSpec.
From Verif.Proofs Require Import ListLemmas.
Import ListNotations.
Local Open Scope R_scope.

(** ** Column-major listing *)
Definition colmajor {A} (r c : nat) (f : nat -> nat -> A) : list A :=
  flat_map (fun j => map (fun i => f i j) (seq 0 r)) (seq 0 c).
Lemma colmajor_S {A} r c (f : nat -> nat -> A) :
  colmajor r (S c) f = (colmajor r c f ++ map (fun i => f i c) (seq 0 r))%list.
Proof. unfold colmajor. rewrite seq_S, flat_map_app'. cbn. rewrite app_nil_r. reflexivity. Qed.
Lemma colmajor_length {A} r c (f : nat -> nat -> A) : length (colmajor r c f) = (c * r)%nat.
Proof.
  induction c as [|c IH]; [ reflexivity | ].
  rewrite colmajor_S, app_length, IH, map_length, seq_length. lia.
Qed.
Lemma nth_error_map_seq {A} (f : nat -> A) n i : (i < n)%nat -> nth_error (map f (seq 0 n)) i = Some (f i).
Proof.
  intros H. rewrite nth_error_map, (nth_error_nth' _ 0%nat) by (rewrite seq_length; exact H).
  rewrite seq_nth by exact H. reflexivity.
Qed.
Lemma colmajor_nth {A} r c (f : nat -> nat -> A) i j : (i < r)%nat -> (j < c)%nat ->
  nth_error (colmajor r c f) (j * r + i) = Some (f i j).
Proof.
  intros Hi. induction c as [|c IH]; intros Hj; [ lia | ]. rewrite colmajor_S.
  destruct (Nat.eq_dec j c) as [->|N].
  - rewrite nth_error_app2; rewrite colmajor_length; [ | lia ].
    replace (c * r + i - c * r)%nat with i by lia. apply (nth_error_map_seq (fun i => f i c)), Hi.
  - rewrite nth_error_app1 by (rewrite colmajor_length; nia). apply IH. lia.
Qed.
(** Every offset below r * c is that of one entry. *)
Lemma colmajor_offset r c k : (k < c * r)%nat -> exists i j, (i < r)%nat /\ (j < c)%nat /\ k = (j * r + i)%nat.
Proof.
  intros H. assert (r <> 0)%nat by nia. exists (k mod r)%nat, (k / r)%nat.
  repeat split; [ apply Nat.mod_upper_bound; assumption | apply Nat.div_lt_upper_bound; lia | ].
  rewrite Nat.mul_comm. apply Nat.div_mod. assumption.
Qed.
Lemma colmajor_offset_inj r i j i' j' : (i < r)%nat -> (i' < r)%nat ->
  (j * r + i = j' * r + i')%nat -> i = i' /\ j = j'.
Proof. intros. assert (j = j') by nia. subst. lia. Qed.
Lemma colmajor_all {A} r c (f : nat -> nat -> A) (P : A -> Prop) :
  (forall x, In x (colmajor r c f) -> P x) <-> (forall i j, (i < r)%nat -> (j < c)%nat -> P (f i j)).
Proof.
  split.
  - intros H i j Hi Hj. apply H. eapply nth_error_In. apply colmajor_nth; eassumption.
  - intros H x Hx. apply In_nth_error in Hx as (k & Hk).
    assert (L : (k < c * r)%nat).
    { rewrite <- (colmajor_length r c f). apply nth_error_Some. congruence. }
    destruct (colmajor_offset r c k L) as (i & j & Hi & Hj & ->).
    rewrite colmajor_nth in Hk by assumption. injection Hk as <-. auto.
Qed.

(** ** The prior *)
Definition same_dims (a b : matrix) : Prop := rows a = rows b /\ cols a = cols b.
Definition same_count (a b : matrix) : Prop := (rows a * cols a = rows b * cols b)%nat.

Lemma ml_throws_iff mean sd :
  MaximumLikelihood mean sd = Throw OptimizationException <-> ~ same_count mean sd.
Proof.
  unfold MaximumLikelihood, same_count. destruct (Nat.eqb_spec (rows mean * cols mean) (rows sd * cols sd));
    split; intros; try discriminate; try contradiction; auto.
Qed.
Lemma ml_accepts mean sd : same_count mean sd -> MaximumLikelihood mean sd = Ok (ML mean sd).
Proof.
  unfold MaximumLikelihood, same_count. intros H. destruct (Nat.eqb_spec (rows mean * cols mean) (rows sd * cols sd));
    [ reflexivity | contradiction ].
Qed.
Lemma same_dims_count a b : same_dims a b -> same_count a b.
Proof. intros [E1 E2]. unfold same_count. rewrite E1, E2. reflexivity. Qed.

Lemma ml_residual_eq mean sd x : same_dims mean sd ->
  ml_residual (ML mean sd) x =
  Ok (colmajor (rows mean) (cols mean) (fun i j => (x (j * rows mean + i)%nat - ent mean i j) / ent sd i j)).
Proof.
  intros [E1 E2]. unfold ml_residual. cbn [ml_mean ml_stdev]. rewrite E1, E2, !Nat.eqb_refl. reflexivity.
Qed.
Lemma ml_value mean sd : same_dims mean sd ->
  exists ml, MaximumLikelihood mean sd = Ok ml /\
  forall x, exists l, ml_residual ml x = Ok l /\ length l = (rows mean * cols mean)%nat /\
    forall i j, (i < rows mean)%nat -> (j < cols mean)%nat ->
      nth_error l (j * rows mean + i) = Some ((x (j * rows mean + i)%nat - ent mean i j) / ent sd i j).
Proof.
  intros H. exists (ML mean sd). split; [ apply ml_accepts, same_dims_count, H | ].
  intros x. rewrite ml_residual_eq by exact H. eexists. split; [ reflexivity | ].
  split; [ rewrite colmajor_length; apply Nat.mul_comm | ].
  intros i j Hi Hj. apply (colmajor_nth _ _ (fun i j => (x (j * rows mean + i)%nat - ent mean i j) / ent sd i j)); assumption.
Qed.
Lemma ml_zero_iff mean sd x ml l : same_dims mean sd ->
  (forall i j, (i < rows mean)%nat -> (j < cols mean)%nat -> ent sd i j <> 0) ->
  MaximumLikelihood mean sd = Ok ml -> ml_residual ml x = Ok l ->
  (forall r, In r l -> r = 0) <->
  (forall i j, (i < rows mean)%nat -> (j < cols mean)%nat -> x (j * rows mean + i)%nat = ent mean i j).
Proof.
  intros H Hn. rewrite ml_accepts by (apply same_dims_count, H). intros [= <-].
  rewrite ml_residual_eq by exact H. intros [= <-]. rewrite colmajor_all.
  split; intros K i j Hi Hj; specialize (K i j Hi Hj); specialize (Hn i j Hi Hj).
  - cbv beta in K. apply Rmult_integral in K as [K|K]; [ lra | ]. apply Rinv_neq_0_compat in Hn. contradiction.
  - cbv beta. rewrite K. unfold Rdiv. rewrite Rminus_diag_eq by reflexivity. apply Rmult_0_l.
Qed.
(** Same number of elements but other dimensions: accepted, and then undefined. *)
Lemma ml_shape_refuted : exists mean sd ml, ~ same_dims mean sd /\
  MaximumLikelihood mean sd = Ok ml /\ forall x, ml_residual ml x = UB.
Proof.
  exists (Mat 2 3 (fun _ _ => 0)), (Mat 3 2 (fun _ _ => 1)). eexists. split; [ intros [H _]; discriminate H | ].
  split; [ reflexivity | ]. intros x. reflexivity.
Qed.
Lemma ml_other_count mean sd : ~ same_count mean sd -> MaximumLikelihood mean sd = Throw OptimizationException.
Proof. apply ml_throws_iff. Qed.
