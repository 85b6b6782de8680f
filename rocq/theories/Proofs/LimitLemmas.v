(** Limits along a filter: [F P] says that [P] holds for all data close enough to perfect. *)
From Coq Require Import Reals Lra Psatz.
From Verif.Base Require Import Geom.
From Verif.Proofs Require Import GeomLemmas RotLemmas.
Local Open Scope R_scope.

Definition is_filter {X} (F : (X -> Prop) -> Prop) : Prop :=
  F (fun _ => True) /\ (forall P Q : X -> Prop, F P -> F Q -> F (fun x => P x /\ Q x)) /\
  (forall P Q : X -> Prop, (forall x, P x -> Q x) -> F P -> F Q).

Definition tends {X} (F : (X -> Prop) -> Prop) (f : X -> R) (a : R) : Prop := forall e, 0 < e -> F (fun x => Rabs (f x - a) < e).
Definition vtends {X} (F : (X -> Prop) -> Prop) (f : X -> vec3) (a : vec3) : Prop :=
  tends F (fun x => vx (f x)) (vx a) /\ tends F (fun x => vy (f x)) (vy a) /\ tends F (fun x => vz (f x)) (vz a).
Definition mtends {X} (F : (X -> Prop) -> Prop) (f : X -> mat3) (a : mat3) : Prop :=
  (tends F (fun x => m00 (f x)) (m00 a) /\ tends F (fun x => m01 (f x)) (m01 a) /\ tends F (fun x => m02 (f x)) (m02 a)) /\
  (tends F (fun x => m10 (f x)) (m10 a) /\ tends F (fun x => m11 (f x)) (m11 a) /\ tends F (fun x => m12 (f x)) (m12 a)) /\
  (tends F (fun x => m20 (f x)) (m20 a) /\ tends F (fun x => m21 (f x)) (m21 a) /\ tends F (fun x => m22 (f x)) (m22 a)).
Definition itends {X} (F : (X -> Prop) -> Prop) (f : X -> iso) (a : iso) : Prop :=
  mtends F (fun x => lin (f x)) (lin a) /\ vtends F (fun x => tr (f x)) (tr a).

Section Limits.
Context {X : Type} (F : (X -> Prop) -> Prop) (HF : is_filter F).

Lemma f_and (P Q : X -> Prop) : F P -> F Q -> F (fun x => P x /\ Q x).
Proof. apply HF. Qed.
Lemma f_imp (P Q : X -> Prop) : F P -> (forall x, P x -> Q x) -> F Q.
Proof. intros A B. exact (proj2 (proj2 HF) P Q B A). Qed.
Lemma f_all (P : X -> Prop) : (forall x, P x) -> F P.
Proof. intros A. apply (f_imp (fun _ => True)); [ apply HF | auto ]. Qed.

Lemma t_const c : tends F (fun _ => c) c.
Proof. intros e He. apply f_all. intros _. rewrite Rminus_diag_eq, Rabs_R0 by reflexivity. exact He. Qed.
Lemma t_ext (f g : X -> R) a : F (fun x => f x = g x) -> tends F f a -> tends F g a.
Proof. intros E T e He. apply (f_imp _ _ (f_and _ _ E (T e He))). intros x [<- H]. exact H. Qed.
Lemma t_plus f g a b : tends F f a -> tends F g b -> tends F (fun x => f x + g x) (a + b).
Proof.
  intros A B e He. apply (f_imp _ _ (f_and _ _ (A (e / 2) ltac:(lra)) (B (e / 2) ltac:(lra)))). intros x [H1 H2].
  replace (f x + g x - (a + b)) with ((f x - a) + (g x - b)) by ring. pose proof (Rabs_triang (f x - a) (g x - b)). lra.
Qed.
Lemma t_opp f a : tends F f a -> tends F (fun x => - f x) (- a).
Proof. intros A e He. apply (f_imp _ _ (A e He)). intros x H. replace (- f x - - a) with (- (f x - a)) by ring. rewrite Rabs_Ropp. exact H. Qed.
Lemma t_minus f g a b : tends F f a -> tends F g b -> tends F (fun x => f x - g x) (a - b).
Proof. intros A B. apply t_plus; [ exact A | apply t_opp, B ]. Qed.
Lemma t_mult f g a b : tends F f a -> tends F g b -> tends F (fun x => f x * g x) (a * b).
Proof.
  intros A B e He. set (M := Rabs a + Rabs b + 1).
  assert (HM : 0 < M) by (unfold M; pose proof (Rabs_pos a); pose proof (Rabs_pos b); lra).
  assert (P : 0 < Rmin 1 (e / (2 * M))) by (apply Rmin_pos; [ lra | apply Rdiv_lt_0_compat; lra ]).
  apply (f_imp _ _ (f_and _ _ (A _ P) (B _ P))). intros x [H1 H2].
  set (d := Rmin 1 (e / (2 * M))) in *. assert (D1 : d <= 1) by apply Rmin_l. assert (D2 : d <= e / (2 * M)) by apply Rmin_r.
  replace (f x * g x - a * b) with ((f x - a) * g x + a * (g x - b)) by ring.
  eapply Rle_lt_trans; [ apply Rabs_triang | ]. rewrite !Rabs_mult.
  assert (G : Rabs (g x) <= Rabs b + 1).
  { replace (g x) with (b + (g x - b)) by ring. eapply Rle_trans; [ apply Rabs_triang | ]. lra. }
  assert (d * M <= e / 2).
  { apply Rle_trans with (e / (2 * M) * M); [ apply Rmult_le_compat_r; lra | ]. apply Req_le. field. lra. }
  pose proof (Rabs_pos (f x - a)). pose proof (Rabs_pos (g x - b)). pose proof (Rabs_pos a). pose proof (Rabs_pos (g x)).
  assert (Rabs (f x - a) * Rabs (g x) <= d * (Rabs b + 1)) by (apply Rmult_le_compat; lra).
  assert (Rabs a * Rabs (g x - b) <= Rabs a * d) by (apply Rmult_le_compat_l; lra).
  assert (d * (Rabs b + 1) + Rabs a * d = d * M) by (unfold M; ring). lra.
Qed.
Lemma t_away f a : tends F f a -> a <> 0 -> F (fun x => Rabs a / 2 < Rabs (f x)).
Proof.
  intros A N. pose proof (Rabs_pos_lt a N). apply (f_imp _ _ (A (Rabs a / 2) ltac:(lra))). intros x Hx.
  pose proof (Rabs_triang_inv a (f x)). rewrite Rabs_minus_sym in Hx. lra.
Qed.
Lemma t_inv f a : tends F f a -> a <> 0 -> tends F (fun x => / f x) (/ a).
Proof.
  intros A N e He. pose proof (Rabs_pos_lt a N) as P.
  assert (Q : 0 < e * (Rabs a * Rabs a) / 2) by (apply Rdiv_lt_0_compat; [ repeat apply Rmult_lt_0_compat; assumption | lra ]).
  apply (f_imp _ _ (f_and _ _ (A _ Q) (t_away f a A N))). intros x [H1 H2].
  assert (Nx : f x <> 0) by (intros Z; rewrite Z, Rabs_R0 in H2; lra).
  replace (/ f x - / a) with (- (f x - a) * / (f x * a)) by (field; auto).
  rewrite Rabs_mult, Rabs_Ropp, Rabs_inv, Rabs_mult.
  apply Rmult_lt_reg_r with (Rabs (f x) * Rabs a); [ apply Rmult_lt_0_compat; lra | ].
  rewrite Rmult_assoc, Rinv_l, Rmult_1_r by (apply Rgt_not_eq, Rmult_lt_0_compat; lra).
  apply Rlt_le_trans with (1 := H1). apply Rle_trans with (e * (Rabs a / 2 * Rabs a)); [ right; field | ].
  apply Rmult_le_compat_l; [ lra | ]. apply Rmult_le_compat_r; lra.
Qed.
Lemma t_div f g a b : tends F f a -> tends F g b -> b <> 0 -> tends F (fun x => f x / g x) (a / b).
Proof. intros A B N. apply t_mult; [ exact A | apply t_inv; assumption ]. Qed.
(** A positive number whose square tends to a square *)
Lemma t_root f a : F (fun x => 0 < f x) -> 0 < a -> tends F (fun x => f x * f x) (a * a) -> tends F f a.
Proof.
  intros P Pa A e He. apply (f_imp _ _ (f_and _ _ P (A (e * a) ltac:(apply Rmult_lt_0_compat; assumption)))). intros x [Px H].
  replace (f x * f x - a * a) with ((f x - a) * (f x + a)) in H by ring. rewrite Rabs_mult, (Rabs_pos_eq (f x + a)) in H by lra.
  apply Rmult_lt_reg_r with a; [ exact Pa | ]. eapply Rle_lt_trans; [ | exact H ]. apply Rmult_le_compat_l; [ apply Rabs_pos | lra ].
Qed.
(** Squares that tend to zero *)
Lemma t_squeeze f g a : F (fun x => Rabs (f x - a) <= g x) -> tends F g 0 -> tends F f a.
Proof.
  intros P A e He. apply (f_imp _ _ (f_and _ _ P (A e He))). intros x [H1 H2]. rewrite Rminus_0_r in H2.
  pose proof (Rle_abs (g x)). lra.
Qed.

Hint Resolve t_const t_plus t_minus t_opp t_mult : lim.
Ltac lim := repeat split; cbn [vx vy vz m00 m01 m02 m10 m11 m12 m20 m21 m22 lin tr]; eauto 20 with lim.

Lemma v_const c : vtends F (fun _ => c) c.
Proof. lim. Qed.
Lemma m_const c : mtends F (fun _ => c) c.
Proof. lim. Qed.
Lemma i_const c : itends F (fun _ => c) c.
Proof. split; [ apply m_const | apply v_const ]. Qed.
Lemma v_add f g a b : vtends F f a -> vtends F g b -> vtends F (fun x => vadd (f x) (g x)) (vadd a b).
Proof. intros (?&?&?) (?&?&?). unfold vadd. lim. Qed.
Lemma v_sub f g a b : vtends F f a -> vtends F g b -> vtends F (fun x => vsub (f x) (g x)) (vsub a b).
Proof. intros (?&?&?) (?&?&?). unfold vsub. lim. Qed.
Lemma v_neg f a : vtends F f a -> vtends F (fun x => vneg (f x)) (vneg a).
Proof. intros (?&?&?). unfold vneg. lim. Qed.
Lemma v_scale f g a b : tends F f a -> vtends F g b -> vtends F (fun x => vscale (f x) (g x)) (vscale a b).
Proof. intros ? (?&?&?). unfold vscale. lim. Qed.
Lemma v_cross f g a b : vtends F f a -> vtends F g b -> vtends F (fun x => cross (f x) (g x)) (cross a b).
Proof. intros (?&?&?) (?&?&?). unfold cross. lim. Qed.
Lemma t_dot f g a b : vtends F f a -> vtends F g b -> tends F (fun x => dot (f x) (g x)) (dot a b).
Proof. intros (?&?&?) (?&?&?). unfold dot. lim. Qed.
Lemma m_T f a : mtends F f a -> mtends F (fun x => mT (f x)) (mT a).
Proof. intros ((?&?&?)&(?&?&?)&(?&?&?)). unfold mT. lim. Qed.
Lemma v_mvec f g a b : mtends F f a -> vtends F g b -> vtends F (fun x => mvec (f x) (g x)) (mvec a b).
Proof. intros ((?&?&?)&(?&?&?)&(?&?&?)) (?&?&?). unfold mvec. lim. Qed.
Lemma m_mmul f g a b : mtends F f a -> mtends F g b -> mtends F (fun x => mmul (f x) (g x)) (mmul a b).
Proof. intros ((?&?&?)&(?&?&?)&(?&?&?)) ((?&?&?)&(?&?&?)&(?&?&?)). unfold mmul. lim. Qed.
Lemma i_mul f g a b : itends F f a -> itends F g b -> itends F (fun x => iso_mul (f x) (g x)) (iso_mul a b).
Proof.
  intros [A1 A2] [B1 B2]. split; cbn [iso_mul lin tr]; [ apply m_mmul; assumption | ].
  apply (v_add (fun x => mvec (lin (f x)) (tr (g x))) (fun x => tr (f x))); [ apply v_mvec; assumption | assumption ].
Qed.
Lemma i_inv f a : itends F f a -> itends F (fun x => iso_inv (f x)) (iso_inv a).
Proof.
  intros [A1 A2]. unfold iso_inv. split; cbn [lin tr]; [ apply m_T; assumption | ].
  first [ apply v_neg, v_mvec; [ apply m_T; assumption | assumption ] | apply v_mvec; [ apply m_T; assumption | apply v_neg; assumption ] ].
Qed.
Lemma v_app f g a b : itends F f a -> vtends F g b -> vtends F (fun x => iso_app (f x) (g x)) (iso_app a b).
Proof. intros [A1 A2] B. unfold iso_app. apply (v_add (fun x => mvec (lin (f x)) (g x))); [ apply v_mvec; assumption | assumption ]. Qed.
Lemma v_ext (f g : X -> vec3) a : F (fun x => f x = g x) -> vtends F f a -> vtends F g a.
Proof. intros E (A & B & C). repeat split; (eapply t_ext; [ | eassumption ]); (eapply f_imp; [ exact E | intros x ->; reflexivity ]). Qed.
Lemma m_ext (f g : X -> mat3) a : F (fun x => f x = g x) -> mtends F f a -> mtends F g a.
Proof. intros E ((?&?&?)&(?&?&?)&(?&?&?)). repeat split; (eapply t_ext; [ | eassumption ]); (eapply f_imp; [ exact E | intros x ->; reflexivity ]). Qed.
Lemma i_ext (f g : X -> iso) a : F (fun x => f x = g x) -> itends F f a -> itends F g a.
Proof. intros E [A B]. split; [ eapply m_ext; [ | exact A ] | eapply v_ext; [ | exact B ] ]; (eapply f_imp; [ exact E | intros x ->; reflexivity ]). Qed.
(** A matrix tends to another if it does on the three axes. *)
Lemma m_axes f a : (forall e, vtends F (fun x => mvec (f x) e) (mvec a e)) -> mtends F f a.
Proof.
  intros H. destruct (H unitX) as (A1 & A2 & A3), (H unitY) as (B1 & B2 & B3), (H unitZ) as (C1 & C2 & C3).
  unfold mvec, unitX, unitY, unitZ in *. cbn [vx vy vz] in *.
  assert (K : forall g b h c, tends F g b -> (forall x, g x = h x) -> b = c -> tends F h c).
  { intros g b h c T E <-. apply (t_ext g); [ apply f_all, E | exact T ]. }
  repeat split; [ refine (K _ _ _ _ A1 _ _) | refine (K _ _ _ _ B1 _ _) | refine (K _ _ _ _ C1 _ _) | refine (K _ _ _ _ A2 _ _) | refine (K _ _ _ _ B2 _ _)
    | refine (K _ _ _ _ C2 _ _) | refine (K _ _ _ _ A3 _ _) | refine (K _ _ _ _ B3 _ _) | refine (K _ _ _ _ C3 _ _) ]; intros; ring.
Qed.
End Limits.
