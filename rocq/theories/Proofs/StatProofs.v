(** Proofs about the accumulators. *)
From Coq Require Import Reals Lra Psatz Lia Arith List Permutation.
From Verif.Base Require Import Geom Outcome.
From Verif.Model Require Import Accumulator.
From Verif.Spec Require Import StatSpec.
Import ListNotations.
Local Open Scope R_scope.

Lemma total_app a b : total (a ++ b) = total a + total b.
Proof. unfold total. induction a as [ | x a IH]; cbn; [ ring | rewrite IH; ring ]. Qed.
Lemma total_perm a b : Permutation a b -> total a = total b.
Proof. unfold total. induction 1; cbn; lra. Qed.
Lemma total_map_ext {A} (f g : A -> R) l : (forall a, In a l -> f a = g a) -> total (map f l) = total (map g l).
Proof. intros H. f_equal. apply map_ext_in, H. Qed.
Lemma squares_about l m : total (map (fun x => (x - m) * (x - m)) l) =
  total (map (fun x => x * x) l) - 2 * m * total l + INR (List.length l) * (m * m).
Proof.
  induction l as [ | a l IH]; [ cbn; ring | ].
  change (List.length (a :: l)) with (S (List.length l)). rewrite S_INR. unfold total in *. cbn [map fold_right]. rewrite IH. ring.
Qed.
Definition pushed (l : list R) : accumulator := fold_left acc_push l acc_empty.
Lemma pushed_snoc l x : pushed (l ++ [x]) = acc_push (pushed l) x.
Proof. unfold pushed. rewrite fold_left_app. reflexivity. Qed.
Lemma pushed_spec l :
  acc_count (pushed l) = List.length l /\ acc_sum (pushed l) = total l /\
  (l <> [] -> acc_immediate_mean (pushed l) = average l /\
    acc_variance (pushed l) = total (map (fun x => x * x) l) / INR (List.length l) - average l * average l) /\
  (l = [] -> acc_immediate_mean (pushed l) = 0 /\ acc_variance (pushed l) = 0).
Proof.
  induction l as [ | x l IH] using rev_ind.
  - cbn. repeat split; congruence.
  - rewrite pushed_snoc. destruct IH as (C & S1 & N & E). unfold acc_push. cbn [acc_count acc_sum acc_immediate_mean acc_variance].
    rewrite C, S1. rewrite app_length, total_app. cbn [List.length]. rewrite Nat.add_1_r.
    split; [ reflexivity | ]. split; [ cbn; ring | ]. split; [ | intros H; destruct l; discriminate ]. intros _.
    replace (Datatypes.S (List.length l) - 1)%nat with (List.length l) by lia.
    unfold average. rewrite app_length, total_app. cbn [List.length]. rewrite Nat.add_1_r.
    rewrite map_app, total_app. cbn [map]. rewrite S_INR.
    destruct l as [ | y l].
    + destruct (E eq_refl) as [-> ->]. cbn. split; field.
    + destruct N as [-> ->]; [ discriminate | ]. unfold average.
      set (L := y :: l). assert (P : 0 < INR (List.length L)) by (apply lt_0_INR; cbn; lia).
      replace (1 <? Datatypes.S (List.length L))%nat with true by reflexivity. cbv zeta.
      set (n := INR (List.length L)) in *. set (s := total L). set (s2 := total (map _ L)).
      unfold total. cbn [fold_right]. split; field; lra.
Qed.
Lemma pushed_mean l : l <> [] -> acc_mean (pushed l) = Ok (average l).
Proof.
  intros N. destruct (pushed_spec l) as (C & S1 & _). unfold acc_mean. rewrite C, S1.
  destruct l as [ | x l]; [ congruence | reflexivity ].
Qed.
Lemma pushed_std l : l <> [] -> sqrt (acc_variance (pushed l)) = std_dev l.
Proof.
  intros N. destruct (pushed_spec l) as (_ & _ & E & _). destruct (E N) as [_ ->]. unfold std_dev. f_equal.
  rewrite squares_about. unfold average.
  assert (P : 0 < INR (List.length l)) by (apply lt_0_INR; destruct l; [ congruence | cbn; lia ]).
  field. lra.
Qed.
Lemma pushed_mean_empty : acc_mean (pushed []) = UB.
Proof. reflexivity. Qed.
