(** Jets hold values and derivatives: one direction at a time. *)
From Coq Require Import Reals Lra Lia List Bool Arith.
From Verif.Base Require Import Geom.
From Verif.Model Require Import Jet.
From Verif.Spec Require Import DerivativeSpec.
Import ListNotations.
Local Open Scope R_scope.

Section Direction.
  Variables (t0 : R) (d : nat * nat).
  (** The jet is the function at [t0]. *)
  Definition rel (f : R -> R) (j : jet) : Prop := f t0 = ja j /\ exists v, jv j d = Fin v /\ derivable_pt_lim f t0 v.

  Definition near (P : R -> Prop) : Prop := exists delta : posreal, forall s, Rabs (s - t0) < delta -> P s.
  Lemma near_at P : near P -> P t0.
  Proof. intros [r H]. apply H. rewrite Rminus_diag_eq, Rabs_R0 by reflexivity. apply cond_pos. Qed.
  Lemma near_and P Q : near P -> near Q -> near (fun s => P s /\ Q s).
  Proof.
    intros [a Ha] [b Hb]. exists (mkposreal _ (Rmin_stable_in_posreal a b)). cbn. intros s Hs.
    pose proof (Rmin_l a b). pose proof (Rmin_r a b). split; [ apply Ha | apply Hb ]; lra.
  Qed.
  Lemma near_imp (P Q : R -> Prop) : (forall s, P s -> Q s) -> near P -> near Q.
  Proof. intros H [r Hr]. exists r. intros s Hs. apply H, Hr, Hs. Qed.
  Lemma near_all (P : R -> Prop) : (forall s, P s) -> near P.
  Proof. intros H. exists (mkposreal 1 Rlt_0_1). auto. Qed.

  Lemma lim_near f g v : near (fun s => f s = g s) -> derivable_pt_lim g t0 v -> derivable_pt_lim f t0 v.
  Proof.
    intros [r Hr] H e He. destruct (H e He) as [a Ha].
    exists (mkposreal _ (Rmin_stable_in_posreal r a)). cbn. intros h Hh0 Hh.
    pose proof (Rmin_l r a). pose proof (Rmin_r r a).
    assert (E0 : f t0 = g t0). { apply Hr. rewrite Rminus_diag_eq, Rabs_R0 by reflexivity. apply cond_pos. }
    assert (E1 : f (t0 + h) = g (t0 + h)). { apply Hr. replace (t0 + h - t0) with h by ring. lra. }
    rewrite E0, E1. apply Ha; [ exact Hh0 | lra ].
  Qed.
  Lemma rel_near f g j : near (fun s => f s = g s) -> rel g j -> rel f j.
  Proof.
    intros H [E (v & Hv & D)]. split; [ rewrite (near_at _ H); exact E | ]. exists v. split; [ exact Hv | ]. exact (lim_near f g v H D).
  Qed.
  Lemma rel_ext f g j : (forall s, f s = g s) -> rel g j -> rel f j.
  Proof. intros H. apply rel_near, near_all, H. Qed.

  Lemma rel_const c : rel (fun _ => c) (jet_lit c).
  Proof. split; [ reflexivity | ]. exists 0. split; [ reflexivity | ]. apply derivable_pt_lim_const. Qed.
  Lemma rel_add f g jf jg : rel f jf -> rel g jg -> rel (fun s => f s + g s) (jet_add jf jg).
  Proof.
    intros [Ef (a & Ha & Da)] [Eg (b & Hb & Db)]. split; [ cbn; congruence | ]. exists (a + b). cbn. rewrite Ha, Hb. split; [ reflexivity | ].
    exact (derivable_pt_lim_plus f g t0 a b Da Db).
  Qed.
  Lemma rel_sub f g jf jg : rel f jf -> rel g jg -> rel (fun s => f s - g s) (jet_sub jf jg).
  Proof.
    intros [Ef (a & Ha & Da)] [Eg (b & Hb & Db)]. split; [ cbn; congruence | ]. exists (a - b). cbn. rewrite Ha, Hb. split; [ reflexivity | ].
    exact (derivable_pt_lim_minus f g t0 a b Da Db).
  Qed.
  Lemma rel_opp f jf : rel f jf -> rel (fun s => - f s) (jet_opp jf).
  Proof.
    intros [Ef (a & Ha & Da)]. split; [ cbn; congruence | ]. exists (- a). cbn. rewrite Ha. split; [ reflexivity | ].
    exact (derivable_pt_lim_opp f t0 a Da).
  Qed.
  Lemma rel_mul f g jf jg : rel f jf -> rel g jg -> rel (fun s => f s * g s) (jet_mul jf jg).
  Proof.
    intros [Ef (a & Ha & Da)] [Eg (b & Hb & Db)]. split; [ cbn; congruence | ]. exists (ja jf * b + a * ja jg). cbn. rewrite Ha, Hb. split; [ reflexivity | ].
    replace (ja jf * b + a * ja jg) with (a * g t0 + f t0 * b) by (rewrite Ef, Eg; ring).
    exact (derivable_pt_lim_mult f g t0 a b Da Db).
  Qed.
  Lemma xinv_fin x : x <> 0 -> xinv x = Fin (/ x).
  Proof. intros H. unfold xinv. destruct (Req_EM_T x 0); [ contradiction | reflexivity ]. Qed.
  Lemma rel_div f g jf jg : g t0 <> 0 -> rel f jf -> rel g jg -> rel (fun s => f s / g s) (jet_div jf jg).
  Proof.
    intros Hg [Ef (a & Ha & Da)] [Eg (b & Hb & Db)]. split; [ cbn; congruence | ].
    exists ((a - ja jf * / ja jg * b) * / ja jg).
    unfold jet_div. cbn [jv]. rewrite Ha, Hb, xinv_fin by (rewrite <- Eg; exact Hg). cbn. split; [ reflexivity | ].
    replace ((a - ja jf * / ja jg * b) * / ja jg) with ((a * g t0 - b * f t0) / Rsqr (g t0))
      by (rewrite Ef, Eg; unfold Rsqr; field; rewrite <- Eg; exact Hg).
    exact (derivable_pt_lim_div f g t0 a b Da Db Hg).
  Qed.
  Lemma rel_comp f u jf v j : rel f jf -> derivable_pt_lim u (f t0) v -> ja j = u (ja jf) -> (forall w, jv jf d = Fin w -> jv j d = Fin (v * w)) ->
    rel (fun s => u (f s)) j.
  Proof.
    intros [Ef (a & Ha & Da)] Du E H. split; [ rewrite E, Ef; reflexivity | ]. exists (v * a). split; [ apply H, Ha | ].
    exact (derivable_pt_lim_comp f u t0 a v Da Du).
  Qed.
  Lemma rel_sin f jf : rel f jf -> rel (fun s => sin (f s)) (jet_sin jf).
  Proof.
    intros H. apply (rel_comp f sin jf (cos (f t0)) _ H); [ apply derivable_pt_lim_sin | reflexivity | ].
    intros w Hw. cbn. rewrite Hw, (proj1 H). reflexivity.
  Qed.
  Lemma rel_cos f jf : rel f jf -> rel (fun s => cos (f s)) (jet_cos jf).
  Proof.
    intros H. apply (rel_comp f cos jf (- sin (f t0)) _ H); [ apply derivable_pt_lim_cos | reflexivity | ].
    intros w Hw. cbn. rewrite Hw, (proj1 H). reflexivity.
  Qed.
  Lemma rel_sqrt f jf : 0 < f t0 -> rel f jf -> rel (fun s => sqrt (f s)) (jet_sqrt jf).
  Proof.
    intros Hp H. apply (rel_comp f sqrt jf (/ (2 * sqrt (f t0))) _ H); [ apply derivable_pt_lim_sqrt, Hp | reflexivity | ].
    intros w Hw. unfold jet_sqrt. cbn [jv]. rewrite Hw, <- (proj1 H). pose proof (sqrt_lt_R0 _ Hp).
    rewrite xinv_fin by lra. cbn. rewrite Rmult_comm. reflexivity.
  Qed.
  Lemma rel_continuity f j : rel f j -> continuity_pt f t0.
  Proof. intros [_ (v & _ & D)]. apply derivable_continuous_pt. exists v. exact D. Qed.
  Lemma near_pos f : continuity_pt f t0 -> 0 < f t0 -> near (fun s => 0 < f s).
  Proof.
    intros C P. destruct (C (f t0) P) as (a & Ha & H). exists (mkposreal a Ha). cbn. intros s Hs.
    destruct (Req_dec s t0) as [-> | N]; [ exact P | ].
    assert (Rabs (f s - f t0) < f t0). { apply (H s). split; [ split; [ exact I | auto ] | exact Hs ]. }
    unfold Rabs in *. destruct (Rcase_abs (f s - f t0)); lra.
  Qed.
  Lemma near_lt f g jf jg : rel f jf -> rel g jg -> f t0 < g t0 -> near (fun s => f s < g s).
  Proof.
    intros Hf Hg L. apply (near_imp (fun s => 0 < g s - f s)); [ intros; lra | ].
    apply (near_pos (fun s => g s - f s)); [ | lra ]. exact (rel_continuity _ _ (rel_sub _ _ _ _ Hg Hf)).
  Qed.
  Lemma rel_abs f jf : f t0 <> 0 -> rel f jf -> rel (fun s => Rabs (f s)) (jet_abs jf).
  Proof.
    intros N H. unfold jet_abs. rewrite <- (proj1 H). destruct (Rlt_dec (f t0) 0) as [L | L].
    - apply (rel_near _ (fun s => - f s)); [ | apply rel_opp, H ].
      apply (near_imp (fun s => f s < 0)); [ intros s Hs; apply Rabs_left, Hs | ].
      exact (near_lt f (fun _ => 0) _ _ H (rel_const 0) L).
    - apply (rel_near _ f); [ | exact H ].
      apply (near_imp (fun s => 0 < f s)); [ intros s Hs; apply Rabs_right; lra | ].
      apply (near_lt (fun _ => 0) f _ _ (rel_const 0) H). lra.
  Qed.
  Lemma rel_atan2 g f jg jf : 0 < f t0 -> rel g jg -> rel f jf -> rel (fun s => atan2 (g s) (f s)) (jet_atan2 jg jf).
  Proof.
    intros P Hg Hf. pose proof Hg as [Eg (b & Hb & Db)]. pose proof Hf as [Ef (a & Ha & Da)].
    apply (rel_near _ (fun s => atan (g s / f s))).
    { apply (near_imp (fun s => 0 < f s)); [ | exact (near_lt (fun _ => 0) f _ _ (rel_const 0) Hf P) ].
      intros s Hs. unfold atan2. destruct (Rlt_dec 0 (f s)); [ reflexivity | contradiction ]. }
    split.
    - cbn. unfold atan2. rewrite <- Ef, <- Eg. destruct (Rlt_dec 0 (f t0)); [ reflexivity | contradiction ].
    - assert (Q : 0 < f t0 * f t0 + g t0 * g t0) by nra.
      exists (/ (1 + Rsqr (g t0 / f t0)) * ((b * f t0 - a * g t0) / Rsqr (f t0))). split.
      + unfold jet_atan2. cbn [jv]. rewrite Ha, Hb, <- Ef, <- Eg, xinv_fin by lra. cbn. f_equal. unfold Rsqr. field.
        split; [ lra | nra ].
      + refine (derivable_pt_lim_comp (fun s => g s / f s) atan t0 _ _ _ _).
        * apply (derivable_pt_lim_div g f t0 b a Db Da). lra.
        * rewrite Rsqr_pow2. exact (derivable_pt_lim_atan (g t0 / f t0)).
  Qed.
  (** Comparisons *)
  Definition rgt (a b : R) : bool := if Rlt_dec b a then true else false.
  Lemma near_gt f g jf jg : rel f jf -> rel g jg -> f t0 <> g t0 -> near (fun s => rgt (f s) (g s) = jet_gt jf jg).
  Proof.
    intros Hf Hg N. unfold rgt, jet_gt. rewrite <- (proj1 Hf), <- (proj1 Hg). destruct (Rlt_dec (g t0) (f t0)) as [L | L].
    - apply (near_imp (fun s => g s < f s)); [ | exact (near_lt _ _ _ _ Hg Hf L) ].
      intros s Hs. destruct (Rlt_dec (g s) (f s)); [ reflexivity | contradiction ].
    - apply (near_imp (fun s => f s < g s)); [ | apply (near_lt _ _ _ _ Hf Hg); lra ].
      intros s Hs. destruct (Rlt_dec (g s) (f s)); [ lra | reflexivity ].
  Qed.
  Lemma near_zero f jf : rel f jf -> f t0 <> 0 -> near (fun s => (if Req_EM_T (f s) 0 then true else false) = jet_is_zero jf).
  Proof.
    intros Hf N. unfold jet_is_zero. rewrite <- (proj1 Hf). destruct (Req_EM_T (f t0) 0); [ contradiction | ].
    destruct (Rtotal_order (f t0) 0) as [L | [ L | L ]]; [ | contradiction | ].
    - apply (near_imp (fun s => f s < 0)); [ | exact (near_lt f (fun _ => 0) _ _ Hf (rel_const 0) L) ].
      intros s Hs. destruct (Req_EM_T (f s) 0); [ lra | reflexivity ].
    - apply (near_imp (fun s => 0 < f s)); [ | exact (near_lt (fun _ => 0) f _ _ (rel_const 0) Hf L) ].
      intros s Hs. destruct (Req_EM_T (f s) 0); [ lra | reflexivity ].
  Qed.
  Lemma rel_if (c : R -> bool) jc f g j k : near (fun s => c s = jc) -> (jc = true -> rel f j) -> (jc = false -> rel g k) ->
    rel (fun s => if c s then f s else g s) (if jc then j else k).
  Proof.
    intros H Hf Hg. destruct jc.
    - apply (rel_near _ f); [ | auto ]. apply (near_imp _ _ (fun s E => f_equal (fun c : bool => if c then f s else g s) E) H).
    - apply (rel_near _ g); [ | auto ]. apply (near_imp _ _ (fun s E => f_equal (fun c : bool => if c then f s else g s) E) H).
  Qed.
End Direction.

(** The parameters along one of them *)
Lemma rel_seed x b i b' i' : rel (x b i) (b, i) (fun s => with_value x b i s b' i') (seed x b' i').
Proof.
  unfold with_value, seed. split.
  - cbn. destruct (Nat.eqb_spec b b') as [ <- | ]; [ | reflexivity ]. destruct (Nat.eqb_spec i i') as [ <- | ]; reflexivity.
  - cbn. destruct (andb (Nat.eqb b b') (Nat.eqb i i')).
    + exists 1. split; [ reflexivity | apply derivable_pt_lim_id ].
    + exists 0. split; [ reflexivity | apply derivable_pt_lim_const ].
Qed.
Lemma gives_rel F x J : (forall b i k, (k < length J)%nat -> rel (x b i) (b, i) (fun s => nth k (F (with_value x b i s)) 0) (nth k J (jet_lit 0))) ->
  length J = length (F x) -> (forall b i, F (with_value x b i (x b i)) = F x) -> gives_derivatives F x J.
Proof.
  intros H L E. split.
  - apply (nth_ext _ _ 0 0); [ rewrite map_length; exact L | ]. intros k Hk. rewrite map_length in Hk.
    change 0 with (ja (jet_lit 0)) at 1. rewrite map_nth. destruct (H 0%nat 0%nat k Hk) as [V _]. cbn beta in V. rewrite <- V, E. reflexivity.
  - intros k j Hj b i. assert (Hk : (k < length J)%nat) by (apply nth_error_Some; congruence).
    destruct (H b i k Hk) as [_ (v & Hv & D)]. exists v. rewrite (nth_error_nth _ _ _ Hj) in Hv. split; [ exact Hv | exact D ].
Qed.
