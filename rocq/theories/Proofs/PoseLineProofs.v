(** C105: files with other lines than names and values. *)
From Coq Require Import Reals ZArith Ascii String List.
From Verif.Base Require Import Float Geom Outcome.
From Verif.Model Require Import Yaml Loaders NumberText PoseText.
From Verif.Spec Require Import PoseTextSpec.
From Verif.Proofs Require Import PoseTextProofs.
Import ListNotations.
Local Open Scope string_scope.

Lemma key_value_line l e : key_value l = Some e -> map_line l.
Proof.
  intros E. right. revert e E. induction l as [|c l IH]; intros e E; [ discriminate | ]. cbn [key_value] in E.
  destruct (c =? ":")%char eqn:C.
  - apply Ascii.eqb_eq in C. subst c. exists "". split; [ intros [] | ]. destruct l as [|b v]; [ left; reflexivity | right ].
    destruct (b =? " ")%char eqn:B; [ | discriminate ]. apply Ascii.eqb_eq in B. subst b. exists v. reflexivity.
  - destruct (key_value l) as [[k v]|]; [ | discriminate ]. destruct (IH _ eq_refl) as (n & N & H). exists (String c n). split.
    + cbn. intros [Q|Q]; [ subst c; discriminate | exact (N Q) ].
    + destruct H as [->|[w ->]]; [ left; reflexivity | right; exists w; reflexivity ].
Qed.
Lemma entries_lines ls es : entries ls = Some es -> forall l, In l ls -> map_line l.
Proof.
  revert es. induction ls as [|l ls IH]; intros es E k [].
  - subst k. destruct l as [|c l]; [ left; reflexivity | ]. cbn [entries] in E.
    destruct (key_value (String c l)) eqn:K; [ eapply key_value_line, K | discriminate ].
  - destruct l as [|c l]; [ eapply IH; [ exact E | assumption ] | ]. cbn [entries] in E.
    destruct (key_value (String c l)); [ | discriminate ]. destruct (entries ls) eqn:Q; [ | discriminate ]. eapply IH; [ reflexivity | assumption ].
Qed.
Lemma other_line disk path text line : disk path = Some text -> In line (lines text) -> ~ map_line line ->
  loadPose_file (load_text disk) path = Throw BadFile.
Proof.
  intros D I N. unfold loadPose_file, LoadFile, load_text. rewrite D. unfold load_flat. destruct (entries (lines text)) as [es|] eqn:E; [ | reflexivity ].
  destruct (N (entries_lines _ _ E _ I)).
Qed.
Definition glued_text : string := "x:5
y: 0".
Lemma glued_example : In "x:5" (lines glued_text) /\ ~ map_line "x:5".
Proof.
  split; [ left; reflexivity | ]. intros [E|(n & N & [E|[v E]])]; [ discriminate | | ];
  destruct n as [|a [|b n]]; try discriminate; injection E as _ E; try discriminate; destruct n as [|c [|d n]]; try discriminate;
  injection E; intros; subst; try discriminate; apply N; right; left; reflexivity.
Qed.
