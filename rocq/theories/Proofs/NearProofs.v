(** C116: nearly perfect data give nearly the true pose or hand-eye calibration. *)
From Coq Require Import Reals Lra Psatz Arith Lia List.
From Verif.Base Require Import Geom Outcome Matrix.
From Verif.Model Require Import Pose Covariance Solver HandEye Pnp.
From Verif.Spec Require Import PinHole Frames HomographySpec PnpSpec UniqueSpec NearSpec.
From Verif.Proofs Require Import GeomLemmas RotLemmas AngleAxisLemmas PoseProofs ListLemmas CovarianceProofs HandEyeProofs PnpProofs UniqueLemmas UniqueProofs LimitLemmas NearPose NearHandEye.
Import ListNotations.
Local Open Scope R_scope.

(** ** Closeness as a filter *)
Definition closer {I} (H : R -> I -> Prop) (P : I -> Prop) : Prop := exists d, 0 < d /\ forall x, H d x -> P x.
Definition antitone {I} (H : R -> I -> Prop) : Prop := forall d d' x, d <= d' -> H d x -> H d' x.
Lemma closer_filter {I} (H : R -> I -> Prop) : antitone H -> is_filter (closer H).
Proof.
  intros M. split; [ | split ].
  - exists 1. split; [ lra | auto ].
  - intros P Q (d & Hd & A) (d' & Hd' & B). exists (Rmin d d'). split; [ apply Rmin_pos; assumption | ].
    intros x Hx. split; [ apply A, (M (Rmin d d')), Hx; apply Rmin_l | apply B, (M (Rmin d d')), Hx; apply Rmin_r ].
  - intros P Q A (d & Hd & B). exists d. split; [ exact Hd | auto ].
Qed.
Lemma closer_at {I} (H : R -> I -> Prop) (Q : R -> I -> Prop) d : (forall d x, H d x -> Q d x) -> 0 < d -> closer H (Q d).
Proof. intros A Hd. exists d. auto. Qed.
Lemma closer_always {I} (H : R -> I -> Prop) (Q : I -> Prop) : (forall d x, H d x -> Q x) -> closer H Q.
Proof. intros A. exists 1. split; [ lra | eauto ]. Qed.

Lemma mat_close_mono d d' A B : d <= d' -> mat_close d A B -> mat_close d' A B.
Proof. intros L H. unfold mat_close in *. decompose [and] H. repeat split; lra. Qed.
Lemma point_close_mono d d' p q : d <= d' -> point_close d p q -> point_close d' p q.
Proof. intros L (A & B & C). repeat split; lra. Qed.
Lemma pixel_close_mono d d' p q : d <= d' -> pixel_close d p q -> pixel_close d' p q.
Proof. intros L (A & B). split; lra. Qed.
Lemma near_pose_mono d d' S T : d <= d' -> near_pose d S T -> near_pose d' S T.
Proof. intros L [A B]. split; [ exact (mat_close_mono _ _ _ _ L A) | exact (point_close_mono _ _ _ _ L B) ]. Qed.
Lemma Forall2_mono {A B} (P Q : A -> B -> Prop) l m : (forall a b, P a b -> Q a b) -> Forall2 P l m -> Forall2 Q l m.
Proof. intros H. induction 1; constructor; auto. Qed.
Lemma near_pixel_mono d d' c c0 : d <= d' -> near_pixel d c c0 -> near_pixel d' c c0.
Proof. intros L [A B]. split; [ exact A | exact (pixel_close_mono _ _ _ _ L B) ]. Qed.
Lemma near_point_mono d d' c c0 : d <= d' -> near_point d c c0 -> near_point d' c c0.
Proof. intros L [A B]. split; [ exact A | exact (point_close_mono _ _ _ _ L B) ]. Qed.
Lemma near_picture_mono d d' cs cs0 : d <= d' -> near_picture d cs cs0 -> near_picture d' cs cs0.
Proof. intros L. apply Forall2_mono. intros. eapply near_pixel_mono; eauto. Qed.
Lemma near_observation_mono {I} (near : R -> correspondence I -> correspondence I -> Prop) d d' o o0 :
  (forall d d' c c0, d <= d' -> near d c c0 -> near d' c c0) -> d <= d' -> near_observation near d o o0 -> near_observation near d' o o0.
Proof.
  intros M L (A & B & C). split; [ exact (near_pose_mono _ _ _ _ L A) | split; [ exact (near_pose_mono _ _ _ _ L B) | ] ].
  apply (Forall2_mono (near d)); [ | exact C ]. intros. eapply M; eauto.
Qed.
Lemma Forall2_in_r {A B} (P : A -> B -> Prop) l m b : Forall2 P l m -> In b m -> exists a, In a l /\ P a b.
Proof.
  induction 1 as [|a b' l m Pab F IH]; intros [].
  - subst. exists a. split; [ left; reflexivity | exact Pab ].
  - destruct (IH H) as (a' & Ia & Pa). exists a'. split; [ right; exact Ia | exact Pa ].
Qed.
Lemma Forall2_at {A B} (P : A -> B -> Prop) l m d e i : Forall2 P l m -> (i < List.length m)%nat -> P (nth i l d) (nth i m e).
Proof.
  intros H. revert i. induction H as [|a b l m Pab F IH]; intros i L; [ cbn in L; lia | ].
  destruct i; [ exact Pab | apply IH; cbn in L; lia ].
Qed.
Lemma Forall2_size {A B} (P : A -> B -> Prop) l m : Forall2 P l m -> List.length l = List.length m.
Proof. induction 1; cbn; congruence. Qed.

Section Filters.
Context {I : Type} (F : (I -> Prop) -> Prop) (HF : is_filter F).
Lemma tends_close f a : (forall d, 0 < d -> F (fun x => Rabs (f x - a) <= d)) -> tends F f a.
Proof. intros H e He. apply (f_imp F HF _ _ (H (e / 2) ltac:(lra))). intros x Hx. lra. Qed.
Lemma close_tends f a d : tends F f a -> 0 < d -> F (fun x => Rabs (f x - a) <= d).
Proof. intros H Hd. apply (f_imp F HF _ _ (H d Hd)). intros x Hx. lra. Qed.
Lemma near_tends (W : I -> iso) W0 : (forall d, 0 < d -> F (fun x => near_pose d (W x) W0)) -> itends F W W0.
Proof.
  intros H. assert (K : forall f : I -> R, forall a, (forall d x, near_pose d (W x) W0 -> Rabs (f x - a) <= d) -> tends F f a).
  { intros f a A. apply tends_close. intros d Hd. apply (f_imp F HF _ _ (H d Hd)). intros x. apply A. }
  unfold itends, mtends, vtends. repeat split; apply K; intros d x [(A1 & A2 & A3 & A4 & A5 & A6 & A7 & A8 & A9) (B1 & B2 & B3)]; assumption.
Qed.
Lemma tends_near (W : I -> iso) W0 d : itends F W W0 -> 0 < d -> F (fun x => near_pose d (W x) W0).
Proof.
  intros [((A1 & A2 & A3) & (A4 & A5 & A6) & (A7 & A8 & A9)) (B1 & B2 & B3)] Hd. unfold near_pose, mat_close, point_close.
  repeat (apply (f_and F HF)); (apply close_tends; [ assumption | exact Hd ]).
Qed.
(** Pictures of a flat target *)
Lemma picture_tends k (S : I -> iso) S0 (cs : I -> list (correspondence vec2)) cs0 :
  F (fun x => rigid (S x)) -> rigid S0 -> ~ edge_on S0 -> fx k <> 0 -> fy k <> 0 ->
  four_flat_points (map in_target cs0) -> perfect_image k S0 cs0 ->
  (forall d, 0 < d -> F (fun x => near_picture d (cs x) cs0)) -> F (fun x => all_in_front (S x) (cs x)) ->
  (forall d, 0 < d -> F (fun x => forall c, In c (cs x) -> pixel_close d (pinhole k (iso_app (S x) (in_target c))) (in_image c))) -> itends F S S0.
Proof.
  intros HS H0 NE Fx Fy (a & b & c & d & Ha & Hb & Hc & Hd & Za & Zb & Zc & Zd & GP) PI NP AF PE.
  apply (image_tends F HF k S S0 a b c d HS H0 NE Fx Fy Za Zb Zc Zd GP). intros p Hp.
  assert (Ip : In p (map in_target cs0)) by (cbn in Hp; intuition (subst; auto)).
  apply in_map_iff in Ip as (c0 & <- & Ic0). destruct (PI c0 Ic0) as [F0 E0].
  assert (K : forall d, 0 < d -> F (fun x => 0 < vz (iso_app (S x) (in_target c0)) /\ pixel_close d (pinhole k (iso_app (S x) (in_target c0))) (pinhole k (iso_app S0 (in_target c0))))).
  { intros e He. apply (f_imp F HF _ _ (f_and F HF _ _ (NP (e / 2) ltac:(lra)) (f_and F HF _ _ AF (PE (e / 2) ltac:(lra))))).
    intros x (N & A & P). destruct (Forall2_in_r _ _ _ _ N Ic0) as (c1 & I1 & (T1 & Q1 & Q2)). destruct (P c1 I1) as [P1 P2]. rewrite T1 in *.
    split; [ rewrite <- T1; apply front_pos, A, I1 | ]. rewrite <- E0. split.
    - replace (px (pinhole k (iso_app (S x) (in_target c0))) - px (in_image c0)) with
        ((px (pinhole k (iso_app (S x) (in_target c0))) - px (in_image c1)) + (px (in_image c1) - px (in_image c0))) by ring.
      eapply Rle_trans; [ apply Rabs_triang | lra ].
    - replace (py (pinhole k (iso_app (S x) (in_target c0))) - py (in_image c0)) with
        ((py (pinhole k (iso_app (S x) (in_target c0))) - py (in_image c1)) + (py (in_image c1) - py (in_image c0))) by ring.
      eapply Rle_trans; [ apply Rabs_triang | lra ]. }
  split; [ apply front_pos, F0 | split; [ | split ] ].
  - apply (f_imp F HF _ _ (K 1 ltac:(lra))). intros x H; apply H.
  - apply tends_close. intros e He. apply (f_imp F HF _ _ (K e He)). intros x H; apply H.
  - apply tends_close. intros e He. apply (f_imp F HF _ _ (K e He)). intros x H; apply H.
Qed.
(** Measured points *)
Lemma measured_tends (S : I -> iso) S0 (cs : I -> list (correspondence vec3)) cs0 :
  F (fun x => rigid (S x)) -> rigid S0 -> not_on_a_line (map in_target cs0) -> perfect_points S0 cs0 ->
  (forall d, 0 < d -> F (fun x => Forall2 (near_point d) (cs x) cs0)) ->
  (forall d, 0 < d -> F (fun x => forall c, In c (cs x) -> point_close d (iso_app (S x) (in_target c)) (in_image c))) -> itends F S S0.
Proof.
  intros HS H0 (a & b & c & Ha & Hb & Hc & Tri) PI NP PE.
  apply (points_tend F HF S S0 a b c HS H0 Tri). intros p Hp.
  assert (Ip : In p (map in_target cs0)) by (cbn in Hp; intuition (subst; auto)).
  apply in_map_iff in Ip as (c0 & <- & Ic0). pose proof (PI c0 Ic0) as E0.
  assert (K : forall d, 0 < d -> F (fun x => point_close d (iso_app (S x) (in_target c0)) (iso_app S0 (in_target c0)))).
  { intros e He. apply (f_imp F HF _ _ (f_and F HF _ _ (NP (e / 2) ltac:(lra)) (PE (e / 2) ltac:(lra)))).
    intros x (N & P). destruct (Forall2_in_r _ _ _ _ N Ic0) as (c1 & I1 & (T1 & Q1 & Q2 & Q3)). destruct (P c1 I1) as (P1 & P2 & P3). rewrite T1 in *.
    rewrite <- E0. split; [ | split ].
    - replace (vx (iso_app (S x) (in_target c0)) - vx (in_image c0)) with ((vx (iso_app (S x) (in_target c0)) - vx (in_image c1)) + (vx (in_image c1) - vx (in_image c0))) by ring.
      eapply Rle_trans; [ apply Rabs_triang | lra ].
    - replace (vy (iso_app (S x) (in_target c0)) - vy (in_image c0)) with ((vy (iso_app (S x) (in_target c0)) - vy (in_image c1)) + (vy (in_image c1) - vy (in_image c0))) by ring.
      eapply Rle_trans; [ apply Rabs_triang | lra ].
    - replace (vz (iso_app (S x) (in_target c0)) - vz (in_image c0)) with ((vz (iso_app (S x) (in_target c0)) - vz (in_image c1)) + (vz (in_image c1) - vz (in_image c0))) by ring.
      eapply Rle_trans; [ apply Rabs_triang | lra ]. }
  repeat split; apply tends_close; intros e He; apply (f_imp F HF _ _ (K e He)); intros x H; apply H.
Qed.
End Filters.

(** ** Small costs *)
Lemma square_below rs e : In e rs -> e * e <= 2 * half_squares rs.
Proof.
  unfold half_squares. intros H. replace (2 * (/ 2 * fold_right (fun r acc => r * r + acc) 0 rs)) with (fold_right (fun r acc => r * r + acc) 0 rs) by field.
  assert (P : forall l, 0 <= fold_right (fun r acc => r * r + acc) 0 l) by (induction l as [|y l IH]; cbn; [lra|nra]).
  induction rs as [|y rs IH]; [ destruct H | ]. cbn. pose proof (P rs). destruct H as [<-|H]; [ nra | ]. pose proof (IH H). nra.
Qed.
Lemma honest_small {X} (solve : solver X) blocks x0 x s : honest solve -> solve blocks x0 = (x, s) ->
  forall f e, In f blocks -> In e (f x) -> e * e <= 2 * final_cost s.
Proof.
  intros H E f e If Ie. specialize (H blocks x0). rewrite E in H. rewrite H. apply square_below. apply in_flat_map. eauto.
Qed.
Lemma abs_below e d : 0 <= d -> e * e <= d * d -> Rabs e <= d.
Proof. intros Hd H. apply Rsqr_le_abs_0 in H. rewrite (Rabs_pos_eq d Hd) in H. exact H. Qed.
(** The cost that keeps every residual below [d] if there are [n] of them. *)
Definition cost_for (n : nat) (d : R) : R := d * d / (2 * INR n + 1).
Lemma cost_for_pos n d : 0 < d -> 0 < cost_for n d.
Proof. intros Hd. pose proof (pos_INR n). apply Rdiv_lt_0_compat; nra. Qed.
Lemma cost_for_right n d c e : 0 < d -> (n <> 0)%nat -> c / INR n <= cost_for n d -> e * e <= 2 * c -> Rabs e <= d.
Proof.
  intros Hd Hn H He. apply abs_below; [ lra | ]. apply Rle_trans with (1 := He).
  assert (P : 0 < INR n) by (apply lt_0_INR; lia). unfold cost_for in H.
  apply (Rmult_le_compat_r (2 * INR n)) in H; [ | lra ]. replace (c / INR n * (2 * INR n)) with (2 * c) in H by (field; lra).
  apply Rle_trans with (1 := H). replace (d * d / (2 * INR n + 1) * (2 * INR n)) with (d * d * (2 * INR n / (2 * INR n + 1))) by (field; lra).
  rewrite <- (Rmult_1_r (d * d)) at 2. apply Rmult_le_compat_l; [ nra | ].
  apply Rmult_le_reg_r with (2 * INR n + 1); [ lra | ]. unfold Rdiv. rewrite Rmult_assoc, Rinv_l, Rmult_1_r by lra. lra.
Qed.
(** Both the data and the cost are close *)
Lemma both_small n d : 0 < d -> 0 < Rmin d (cost_for n d) /\ Rmin d (cost_for n d) <= d /\ Rmin d (cost_for n d) <= cost_for n d.
Proof. intros Hd. split; [ apply Rmin_pos; [ exact Hd | apply cost_for_pos, Hd ] | split; [ apply Rmin_l | apply Rmin_r ] ]. Qed.

(** ** Pose estimation *)
Lemma pnp_geometry2 k T0 cs0 : rigid T0 -> ~ edge_on T0 -> fx k <> 0 -> fy k <> 0 ->
  four_flat_points (map in_target cs0) -> perfect_image k T0 cs0 ->
  forall e, 0 < e -> exists d, 0 < d /\ forall T cs, rigid T -> near_picture d cs cs0 -> all_in_front T cs ->
    (forall c, In c cs -> pixel_close d (pinhole k (iso_app T (in_target c))) (in_image c)) -> near_pose e T T0.
Proof.
  intros R0 NE Fx Fy FF PI e He.
  set (H := fun d (x : iso * list (correspondence vec2)) => rigid (fst x) /\ near_picture d (snd x) cs0 /\ all_in_front (fst x) (snd x) /\
    forall c, In c (snd x) -> pixel_close d (pinhole k (iso_app (fst x) (in_target c))) (in_image c)).
  assert (A : antitone H).
  { intros d d' x L (H1 & H2 & H3 & H4). split; [ exact H1 | split; [ exact (near_picture_mono _ _ _ _ L H2) | split; [ exact H3 | ] ] ].
    intros c Hc. exact (pixel_close_mono _ _ _ _ L (H4 c Hc)). }
  pose proof (closer_filter H A) as HF.
  assert (T : itends (closer H) fst T0).
  { apply (picture_tends _ HF k fst T0 snd cs0); auto.
    - apply closer_always. intros d x Hx. apply Hx.
    - intros d Hd. apply (closer_at H (fun d x => near_picture d (snd x) cs0)); [ intros d' x Hx; apply Hx | exact Hd ].
    - apply closer_always. intros d x Hx. apply Hx.
    - intros d Hd. apply (closer_at H (fun d x => forall c, In c (snd x) -> pixel_close d (pinhole k (iso_app (fst x) (in_target c))) (in_image c))); [ intros d' x Hx; apply Hx | exact Hd ]. }
  destruct (tends_near _ HF _ _ _ T He) as (d & Hd & B). exists d. split; [ exact Hd | ].
  intros S cs H1 H2 H3 H4. apply (B (S, cs)). split; [ exact H1 | split; [ exact H2 | split; [ exact H3 | exact H4 ] ] ].
Qed.
Lemma pnp_geometry3 T0 cs0 : rigid T0 -> not_on_a_line (map in_target cs0) -> perfect_points T0 cs0 ->
  forall e, 0 < e -> exists d, 0 < d /\ forall T cs, rigid T -> Forall2 (near_point d) cs cs0 ->
    (forall c, In c cs -> point_close d (iso_app T (in_target c)) (in_image c)) -> near_pose e T T0.
Proof.
  intros R0 FF PI e He.
  set (H := fun d (x : iso * list (correspondence vec3)) => rigid (fst x) /\ Forall2 (near_point d) (snd x) cs0 /\
    forall c, In c (snd x) -> point_close d (iso_app (fst x) (in_target c)) (in_image c)).
  assert (A : antitone H).
  { intros d d' x L (H1 & H2 & H4). split; [ exact H1 | split; [ | intros c Hc; exact (point_close_mono _ _ _ _ L (H4 c Hc)) ] ].
    apply (Forall2_mono (near_point d)); [ intros; eapply near_point_mono; eauto | exact H2 ]. }
  pose proof (closer_filter H A) as HF.
  assert (T : itends (closer H) fst T0).
  { apply (measured_tends _ HF fst T0 snd cs0); auto.
    - apply closer_always. intros d x Hx. apply Hx.
    - intros d Hd. apply (closer_at H (fun d x => Forall2 (near_point d) (snd x) cs0)); [ intros d' x Hx; apply Hx | exact Hd ].
    - intros d Hd. apply (closer_at H (fun d x => forall c, In c (snd x) -> point_close d (iso_app (fst x) (in_target c)) (in_image c))); [ intros d' x Hx; apply Hx | exact Hd ]. }
  destruct (tends_near _ HF _ _ _ T He) as (d & Hd & B). exists d. split; [ exact Hd | ].
  intros S cs H1 H2 H4. apply (B (S, cs)). split; [ exact H1 | split; [ exact H2 | exact H4 ] ].
Qed.

Lemma pnp_near2 k T0 cs0 : rigid T0 -> ~ edge_on T0 -> fx k <> 0 -> fy k <> 0 ->
  four_flat_points (map in_target cs0) -> perfect_image k T0 cs0 ->
  forall e, 0 < e -> exists d, 0 < d /\ forall u solve cov p r, honest solve -> optimizePnP u solve cov p = Ok r ->
    pnp_intr p = k -> near_picture d (pnp_correspondences p) cs0 -> all_in_front (pnp_camera_to_target r) (pnp_correspondences p) ->
    pnp_final_cost_per_obs r <= d -> near_pose e (pnp_camera_to_target r) T0.
Proof.
  intros R0 NE Fx Fy FF PI e He. destruct (pnp_geometry2 k T0 cs0 R0 NE Fx Fy FF PI e He) as (d & Hd & B).
  set (n := (2 * List.length cs0)%nat). destruct (both_small n d Hd) as (Hm & M1 & M2).
  exists (Rmin d (cost_for n d)). split; [ exact Hm | ]. intros u solve cov p r Ho E Ek NP AF Hc.
  rewrite optimizePnP_unfold in E. pose proof (pnp_finish_rigid _ _ _ _ _ _ _ E) as RR.
  destruct (pnp_finish_fields _ _ _ _ _ _ _ E) as (x & s & Es & _ & Ht & _ & Hf).
  rewrite (num_residuals_const _ 2) in Hf by reflexivity. rewrite (Forall2_size _ _ _ NP) in Hf.
  replace (2 * List.length cs0)%nat with n in Hf by reflexivity || replace (List.length cs0 * 2)%nat with n in Hf by (unfold n; lia).
  assert (Nn : n <> 0%nat) by (destruct (four_flat_nonempty _ FF) as [c Hc']; pose proof (nonempty_in _ _ Hc'); unfold n; lia).
  apply (B _ (pnp_correspondences p)); auto; [ exact (near_picture_mono _ _ _ _ M1 NP) | ].
  intros c Hc'. pose proof (AF c Hc') as F2.
  assert (Q : forall f, In f (pnp_cost (pnp_intr p) (in_target c) (in_image c) x) -> Rabs f <= d).
  { intros f If. apply (cost_for_right n d (final_cost s)); auto; [ rewrite <- Hf; lra | ].
    apply (honest_small _ _ _ _ _ Ho Es (pnp_cost (pnp_intr p) (in_target c) (in_image c))); [ | exact If ]. apply in_map_iff. exists c. auto. }
  rewrite pnp_cost_pinhole in Q by (rewrite <- Ht; exact F2). unfold pixel_error in Q. rewrite <- Ht, Ek in Q.
  split; [ exact (Q _ (or_introl eq_refl)) | exact (Q _ (or_intror (or_introl eq_refl))) ].
Qed.
Lemma pnp_near3 T0 cs0 : rigid T0 -> not_on_a_line (map in_target cs0) -> perfect_points T0 cs0 ->
  forall e, 0 < e -> exists d, 0 < d /\ forall u solve cov p r, honest solve -> optimizePnP3D u solve cov p = Ok r ->
    Forall2 (near_point d) (pnp3_correspondences p) cs0 -> pnp_final_cost_per_obs r <= d -> near_pose e (pnp_camera_to_target r) T0.
Proof.
  intros R0 FF PI e He. destruct (pnp_geometry3 T0 cs0 R0 FF PI e He) as (d & Hd & B).
  set (n := (3 * List.length cs0)%nat). destruct (both_small n d Hd) as (Hm & M1 & M2).
  exists (Rmin d (cost_for n d)). split; [ exact Hm | ]. intros u solve cov p r Ho E NP Hc.
  rewrite optimizePnP3D_unfold in E. pose proof (pnp_finish_rigid _ _ _ _ _ _ _ E) as RR.
  destruct (pnp_finish_fields _ _ _ _ _ _ _ E) as (x & s & Es & _ & Ht & _ & Hf).
  rewrite (num_residuals_const _ 3) in Hf by reflexivity. rewrite (Forall2_size _ _ _ NP) in Hf.
  replace (3 * List.length cs0)%nat with n in Hf by reflexivity || replace (List.length cs0 * 3)%nat with n in Hf by (unfold n; lia).
  assert (Nn : n <> 0%nat) by (destruct (not_on_a_line_nonempty _ FF) as [c Hc']; pose proof (nonempty_in _ _ Hc'); unfold n; lia).
  apply (B _ (pnp3_correspondences p)); auto; [ apply (Forall2_mono (near_point (Rmin d (cost_for n d)))); [ intros; eapply near_point_mono; eauto | exact NP ] | ].
  intros c Hc'.
  assert (Q : forall f, In f (pnp_cost3D (in_target c) (in_image c) x) -> Rabs f <= d).
  { intros f If. apply (cost_for_right n d (final_cost s)); auto; [ rewrite <- Hf; lra | ].
    apply (honest_small _ _ _ _ _ Ho Es (pnp_cost3D (in_target c) (in_image c))); [ | exact If ]. apply in_map_iff. exists c. auto. }
  rewrite pnp_cost3D_eq in Q. unfold point_error in Q. rewrite <- Ht in Q.
  split; [ exact (Q _ (or_introl eq_refl)) | split; [ exact (Q _ (or_intror (or_introl eq_refl))) | exact (Q _ (or_intror (or_intror (or_introl eq_refl)))) ] ].
Qed.

(** ** Hand-eye calibration *)
Lemma In_at {A} (l : list A) a d : In a l -> exists i, (i < List.length l)%nat /\ nth i l d = a.
Proof. intros H. destruct (In_nth l a d H) as (i & L & E). eauto. Qed.
Definition no_observation {C} : observation C := Obs [] iso_id iso_id.
Definition seen_at {C} (X Z : iso) (o : observation C) : iso := target_in_camera X (to_camera_mount o) (to_target_mount o) Z.
Lemma seen_rigid {C} X Z (o : observation C) : rigid X -> rigid Z -> rigid (to_camera_mount o) -> rigid (to_target_mount o) -> rigid (seen_at X Z o).
Proof. intros. apply rigid_mul; [ apply rigid_inv | ]; apply rigid_mul; assumption. Qed.

Section HandEye.
Context {C : Type} (near : R -> correspondence C -> correspondence C -> Prop) (fits : R -> iso -> list (correspondence C) -> Prop).
Hypothesis near_mono : forall d d' c c0, d <= d' -> near d c c0 -> near d' c c0.
Hypothesis fits_mono : forall d d' S cs, d <= d' -> fits d S cs -> fits d' S cs.
Let data := (iso * iso * list (observation C))%type.
Lemma he_geometry X0 Z0 (os0 : list (observation C)) : rigid X0 -> rigid Z0 ->
  (forall o, In o os0 -> rigid (to_camera_mount o) /\ rigid (to_target_mount o)) -> two_axes (motions_of (map mounts os0)) ->
  (forall o, In o os0 -> forall (F : (data -> Prop) -> Prop) (S : data -> iso) (cs : data -> list (correspondence C)), is_filter F ->
     F (fun x => rigid (S x)) -> (forall d, 0 < d -> F (fun x => Forall2 (near d) (cs x) (correspondence_set o))) ->
     (forall d, 0 < d -> F (fun x => fits d (S x) (cs x))) -> itends F S (seen_at X0 Z0 o)) ->
  forall e, 0 < e -> exists d, 0 < d /\ forall X Z os, rigid X -> rigid Z ->
    (forall o, In o os -> rigid (to_camera_mount o) /\ rigid (to_target_mount o)) ->
    Forall2 (near_observation near d) os os0 -> (forall o, In o os -> fits d (seen_at X Z o) (correspondence_set o)) ->
    near_pose e X X0 /\ near_pose e Z Z0.
Proof.
  intros RX0 RZ0 RO TA SEN e He.
  set (H := fun d (x : data) => rigid (fst (fst x)) /\ rigid (snd (fst x)) /\
    (forall o, In o (snd x) -> rigid (to_camera_mount o) /\ rigid (to_target_mount o)) /\
    Forall2 (near_observation near d) (snd x) os0 /\ (forall o, In o (snd x) -> fits d (seen_at (fst (fst x)) (snd (fst x)) o) (correspondence_set o))).
  assert (A : antitone H).
  { intros d d' x L (H1 & H2 & H3 & H4 & H5). split; [ exact H1 | split; [ exact H2 | split; [ exact H3 | split ] ] ].
    - apply (Forall2_mono (near_observation near d)); [ | exact H4 ]. intros a b. apply near_observation_mono; assumption.
    - intros o Io. exact (fits_mono _ _ _ _ L (H5 o Io)). }
  pose proof (closer_filter H A) as HF. set (F := closer H) in *.
  set (at_ := fun m (x : data) => nth m (snd x) (@no_observation C)).
  assert (AT : forall m, (m < List.length os0)%nat -> forall d x, H d x -> In (at_ m x) (snd x) /\ near_observation near d (at_ m x) (nth m os0 no_observation)).
  { intros m L d x (_ & _ & _ & N & _). split; [ apply nth_In; rewrite (Forall2_size _ _ _ N); exact L | apply (Forall2_at _ _ _ _ _ _ N L) ]. }
  assert (IN : forall m, (m < List.length os0)%nat -> In (nth m os0 no_observation) os0) by (intros; apply nth_In; assumption).
  set (J := {m : nat | (m < List.length os0)%nat}).
  assert (FX : F (fun x => rigid (fst (fst x)))) by (apply closer_always; intros d x Hx; apply Hx).
  assert (FZ : F (fun x => rigid (snd (fst x)))) by (apply closer_always; intros d x Hx; apply Hx).
  assert (FM : forall j : J, F (fun x => rigid (to_camera_mount (at_ (proj1_sig j) x)) /\ rigid (to_target_mount (at_ (proj1_sig j) x)))).
  { intros [m L]. cbn [proj1_sig]. apply closer_always. intros d x Hx. destruct (AT m L d x Hx) as [I1 _]. apply Hx, I1. }
  destruct TA as (MA & MB & u & v & IA & IB & TU & TV & NP).
  apply in_motions_of in IA as (Wi & Wj & Ii & Ij & ->). apply in_motions_of in IB as (Wk & Wl & Ik & Il & ->).
  assert (PICK : forall W, In W (map mounts os0) -> exists j : J, mounts (nth (proj1_sig j) os0 no_observation) = W).
  { intros W IW. apply in_map_iff in IW as (o & <- & Io). destruct (In_at os0 o no_observation Io) as (m & L & E). exists (exist _ m L). cbn. rewrite E. reflexivity. }
  destruct (PICK _ Ii) as [i Ei]. destruct (PICK _ Ij) as [j Ej]. destruct (PICK _ Ik) as [k Ek]. destruct (PICK _ Il) as [l El].
  assert (T : itends F (fun x => fst (fst x)) X0 /\ itends F (fun x => snd (fst x)) Z0).
  { apply (hand_eye_tends F HF (J := J) (fun x => fst (fst x)) (fun x => snd (fst x)) X0 Z0
      (fun j x => mounts (at_ (proj1_sig j) x)) (fun j x => seen_at (fst (fst x)) (snd (fst x)) (at_ (proj1_sig j) x))
      (fun j => mounts (nth (proj1_sig j) os0 no_observation)) i j k l u v); auto.
    - intros m. apply (f_imp F HF _ _ (FM m)). intros x [R1 R2]. apply mounts_rigid; assumption.
    - intros [m L]. destruct (RO _ (IN m L)). apply mounts_rigid; assumption.
    - intros [m L]. cbn [proj1_sig]. unfold mounts. apply (i_mul F HF); [ apply (i_inv F HF) | ]; apply (near_tends F HF);
        intros d Hd; exists d; (split; [ exact Hd | ]); intros x Hx; destruct (AT m L d x Hx) as [_ N]; apply N.
    - intros m. apply (f_imp F HF _ _ (f_and F HF _ _ FX (FM m))). intros x (R1 & R2 & _). apply tic_mounts; assumption.
    - intros [m L]. cbn [proj1_sig]. destruct (RO _ (IN m L)) as [R1 R2]. rewrite <- tic_mounts by assumption.
      apply (SEN _ (IN m L) F _ (fun x => correspondence_set (at_ m x)) HF).
      + apply (f_imp F HF _ _ (f_and F HF _ _ (f_and F HF _ _ FX FZ) (FM (exist _ m L)))). intros x ((Q1 & Q2) & Q3 & Q4). apply seen_rigid; assumption.
      + intros d Hd. exists d. split; [ exact Hd | ]. intros x Hx. destruct (AT m L d x Hx) as [_ N]. apply N.
      + intros d Hd. exists d. split; [ exact Hd | ]. intros x Hx. destruct (AT m L d x Hx) as [I1 _]. apply Hx, I1.
    - rewrite Ei, Ej. exact TU.
    - rewrite Ek, El. exact TV. }
  destruct T as [T1 T2].
  destruct (f_and F HF _ _ (tends_near F HF _ _ _ T1 He) (tends_near F HF _ _ _ T2 He)) as (d & Hd & B).
  exists d. split; [ exact Hd | ]. intros X Z os H1 H2 H3 H4 H5. apply (B (X, Z, os)).
  split; [ exact H1 | split; [ exact H2 | split; [ exact H3 | split; [ exact H4 | exact H5 ] ] ] ].
Qed.
End HandEye.

Definition fits2 k (d : R) (S : iso) (cs : list (correspondence vec2)) : Prop :=
  all_in_front S cs /\ forall c, In c cs -> pixel_close d (pinhole k (iso_app S (in_target c))) (in_image c).
Definition fits3 (d : R) (S : iso) (cs : list (correspondence vec3)) : Prop :=
  forall c, In c cs -> point_close d (iso_app S (in_target c)) (in_image c).
Lemma fits2_mono k d d' S cs : d <= d' -> fits2 k d S cs -> fits2 k d' S cs.
Proof. intros L [A B]. split; [ exact A | ]. intros c Hc. exact (pixel_close_mono _ _ _ _ L (B c Hc)). Qed.
Lemma fits3_mono d d' S cs : d <= d' -> fits3 d S cs -> fits3 d' S cs.
Proof. intros L B c Hc. exact (point_close_mono _ _ _ _ L (B c Hc)). Qed.
Lemma picture_fits {I} (F : (I -> Prop) -> Prop) k (S : I -> iso) S0 cs cs0 : is_filter F ->
  rigid S0 -> ~ edge_on S0 -> fx k <> 0 -> fy k <> 0 -> four_flat_points (map in_target cs0) -> perfect_image k S0 cs0 ->
  F (fun x => rigid (S x)) -> (forall d, 0 < d -> F (fun x => near_picture d (cs x) cs0)) -> (forall d, 0 < d -> F (fun x => fits2 k d (S x) (cs x))) -> itends F S S0.
Proof.
  intros HF R0 NE Fx Fy FF PI RS NP FI. apply (picture_tends F HF k S S0 cs cs0); auto.
  - apply (f_imp F HF _ _ (FI 1 ltac:(lra))). intros x H; apply H.
  - intros d Hd. apply (f_imp F HF _ _ (FI d Hd)). intros x H; apply H.
Qed.
Lemma all_pairs_size {C} (R' : observation C -> observation C -> Prop) os os0 :
  (forall o o0, R' o o0 -> List.length (correspondence_set o) = List.length (correspondence_set o0)) -> Forall2 R' os os0 ->
  List.length (all_pairs os) = List.length (all_pairs os0).
Proof.
  intros H. induction 1 as [|o o0 os os0 Ro _ IH]; [ reflexivity | ]. unfold all_pairs in *. cbn. rewrite !app_length, !map_length, (H _ _ Ro), IH. reflexivity.
Qed.
Lemma he_near2 k X0 Z0 os0 : fx k <> 0 -> fy k <> 0 -> rigid X0 -> rigid Z0 ->
  let seen X Z (o : observation vec2) := target_in_camera X (to_camera_mount o) (to_target_mount o) Z in
  (forall o, In o os0 -> rigid (to_camera_mount o) /\ rigid (to_target_mount o) /\
     four_flat_points (map in_target (correspondence_set o)) /\ ~ edge_on (seen X0 Z0 o) /\ perfect_image k (seen X0 Z0 o) (correspondence_set o)) ->
  two_axes (motions_of (map mounts os0)) ->
  forall e, 0 < e -> exists d, 0 < d /\ forall u solve cov p r, honest solve -> optimize2D3D u solve cov p = Ok r ->
    h2_intr p = k -> plain_obs (h2_observations p) -> Forall2 (near_observation near_pixel d) (h2_observations p) os0 ->
    rigid (he_camera_mount_to_camera r) -> rigid (he_target_mount_to_target r) ->
    (forall o, In o (h2_observations p) -> all_in_front (seen (he_camera_mount_to_camera r) (he_target_mount_to_target r) o) (correspondence_set o)) ->
    he_final_cost_per_obs r <= d ->
    near_pose e (he_camera_mount_to_camera r) X0 /\ near_pose e (he_target_mount_to_target r) Z0.
Proof.
  intros Fx Fy RX0 RZ0 seen D TA e He.
  destruct (he_geometry near_pixel (fits2 k) near_pixel_mono (fits2_mono k) X0 Z0 os0 RX0 RZ0) with (e := e) as (d & Hd & B); auto.
  { intros o Io. destruct (D o Io) as (R1 & R2 & _). split; assumption. }
  { intros o Io F S cs HF RS NP FI. destruct (D o Io) as (R1 & R2 & FF & NE & PI).
    apply (picture_fits F k S _ cs (correspondence_set o)); auto. apply seen_rigid; assumption. }
  set (n := (2 * List.length (all_pairs os0))%nat). destruct (both_small n d Hd) as (Hm & M1 & M2).
  exists (Rmin d (cost_for n d)). split; [ exact Hm | ]. intros u solve cov p r Ho E Ek PO NP RX RZ AF Hc.
  rewrite optimize2D3D_unfold in E. destruct (forallb _ _); [ | discriminate ].
  destruct (he_finish_fields _ _ _ _ _ _ _ E) as (xf & s & Es & _ & Ht & Hm' & _ & Hf).
  assert (RC : rigid (poseCalToEigen (fst xf))) by (apply rigid_of_inv; rewrite <- Hm'; exact RX).
  rewrite (num_residuals_const _ 2) in Hf by (intros [? ?]; reflexivity).
  rewrite (all_pairs_size _ _ _ (fun o o0 (Q : near_observation near_pixel _ o o0) => Forall2_size _ _ _ (proj2 (proj2 Q))) NP) in Hf.
  assert (Nn : n <> 0%nat).
  { destruct (two_axes_nonempty _ TA) as [A HA]. apply in_motions_of in HA as (W & _ & IW & _).
    apply in_map_iff in IW as (o & _ & Io). destruct (D o Io) as (_ & _ & FF & _).
    destruct (four_flat_nonempty _ FF) as [c Hc']. pose proof (nonempty_in _ _ (proj2 (in_all_pairs _ _ _) (conj Io Hc'))). unfold n; lia. }
  apply (B _ _ (h2_observations p)); auto.
  - intros o Io. destruct (PO o Io). split; apply plain_rigid; assumption.
  - apply (Forall2_mono (near_observation near_pixel (Rmin d (cost_for n d)))); [ | exact NP ]. intros a b. apply near_observation_mono; [ exact near_pixel_mono | exact M1 ].
  - intros o Io. split; [ exact (AF o Io) | ]. intros c Ic. pose proof (AF o Io c Ic) as F2.
    assert (Q : forall f, In f (blk2 (h2_intr p) (o, c) xf) -> Rabs f <= d).
    { intros f If. apply (cost_for_right n d (final_cost s)); auto.
      - unfold n in *. replace (INR (2 * List.length (all_pairs os0))) with (INR (List.length (all_pairs os0) * 2)) by (f_equal; lia). 
        first [ rewrite <- Hf; lra | replace (List.length (all_pairs os0) * 2)%nat with (2 * List.length (all_pairs os0))%nat by lia; rewrite <- Hf; lra ].
      - apply (honest_small _ _ _ _ _ Ho Es (blk2 (h2_intr p) (o, c))); [ | exact If ]. apply in_map, in_all_pairs. auto. }
    unfold blk2 in Q. destruct xf as [pc pt]. cbn [fst snd] in *. destruct (PO o Io) as [P1 P2].
    rewrite (cost2D3D_physical _ _ _ _ _ (he_camera_mount_to_camera r)) in Q; try assumption.
    2:{ rewrite Hm', iso_inv_inv by exact RC. reflexivity. }
    rewrite <- Ht in Q. cbv zeta in Q. apply front_pos in F2.
    fold (seen (he_camera_mount_to_camera r) (he_target_mount_to_target r) o) in Q.
    rewrite arr_pinhole, Ek in Q by lra.
    split; [ exact (Q _ (or_introl eq_refl)) | exact (Q _ (or_intror (or_introl eq_refl))) ].
Qed.
Lemma he_near3 X0 Z0 os0 : rigid X0 -> rigid Z0 ->
  let seen X Z (o : observation vec3) := target_in_camera X (to_camera_mount o) (to_target_mount o) Z in
  (forall o, In o os0 -> rigid (to_camera_mount o) /\ rigid (to_target_mount o) /\
     not_on_a_line (map in_target (correspondence_set o)) /\ perfect_points (seen X0 Z0 o) (correspondence_set o)) ->
  two_axes (motions_of (map mounts os0)) ->
  forall e, 0 < e -> exists d, 0 < d /\ forall u solve cov p r, honest solve -> optimize3D3D u solve cov p = Ok r ->
    plain_obs (h3_observations p) -> Forall2 (near_observation near_point d) (h3_observations p) os0 ->
    rigid (he_camera_mount_to_camera r) -> rigid (he_target_mount_to_target r) ->
    he_final_cost_per_obs r <= d ->
    near_pose e (he_camera_mount_to_camera r) X0 /\ near_pose e (he_target_mount_to_target r) Z0.
Proof.
  intros RX0 RZ0 seen D TA e He.
  destruct (he_geometry near_point fits3 near_point_mono fits3_mono X0 Z0 os0 RX0 RZ0) with (e := e) as (d & Hd & B); auto.
  { intros o Io. destruct (D o Io) as (R1 & R2 & _). split; assumption. }
  { intros o Io F S cs HF RS NP FI. destruct (D o Io) as (R1 & R2 & FF & PI).
    apply (measured_tends F HF S _ cs (correspondence_set o)); auto. apply seen_rigid; assumption. }
  set (n := (3 * List.length (all_pairs os0))%nat). destruct (both_small n d Hd) as (Hm & M1 & M2).
  exists (Rmin d (cost_for n d)). split; [ exact Hm | ]. intros u solve cov p r Ho E PO NP RX RZ Hc.
  rewrite optimize3D3D_unfold in E.
  destruct (he_finish_fields _ _ _ _ _ _ _ E) as (xf & s & Es & _ & Ht & Hm' & _ & Hf).
  assert (RC : rigid (poseCalToEigen (fst xf))) by (apply rigid_of_inv; rewrite <- Hm'; exact RX).
  rewrite (num_residuals_const _ 3) in Hf by (intros [? ?]; reflexivity).
  rewrite (all_pairs_size _ _ _ (fun o o0 (Q : near_observation near_point _ o o0) => Forall2_size _ _ _ (proj2 (proj2 Q))) NP) in Hf.
  assert (Nn : n <> 0%nat).
  { destruct (two_axes_nonempty _ TA) as [A HA]. apply in_motions_of in HA as (W & _ & IW & _).
    apply in_map_iff in IW as (o & _ & Io). destruct (D o Io) as (_ & _ & FF & _).
    destruct (not_on_a_line_nonempty _ FF) as [c Hc']. pose proof (nonempty_in _ _ (proj2 (in_all_pairs _ _ _) (conj Io Hc'))). unfold n; lia. }
  apply (B _ _ (h3_observations p)); auto.
  - intros o Io. destruct (PO o Io). split; apply plain_rigid; assumption.
  - apply (Forall2_mono (near_observation near_point (Rmin d (cost_for n d)))); [ | exact NP ]. intros a b. apply near_observation_mono; [ exact near_point_mono | exact M1 ].
  - intros o Io c Ic.
    assert (Q : forall f, In f (blk3 (o, c) xf) -> Rabs f <= d).
    { intros f If. apply (cost_for_right n d (final_cost s)); auto.
      - unfold n in *. replace (INR (3 * List.length (all_pairs os0))) with (INR (List.length (all_pairs os0) * 3)) by (f_equal; lia). 
        first [ rewrite <- Hf; lra | replace (List.length (all_pairs os0) * 3)%nat with (3 * List.length (all_pairs os0))%nat by lia; rewrite <- Hf; lra ].
      - apply (honest_small _ _ _ _ _ Ho Es (blk3 (o, c))); [ | exact If ]. apply in_map, in_all_pairs. auto. }
    unfold blk3 in Q. destruct xf as [pc pt]. cbn [fst snd] in *. destruct (PO o Io) as [P1 P2].
    rewrite (cost3D3D_physical _ _ _ _ (he_camera_mount_to_camera r)) in Q; try assumption.
    2:{ rewrite Hm', iso_inv_inv by exact RC. reflexivity. }
    rewrite <- Ht in Q. cbv zeta in Q.
    split; [ exact (Q _ (or_introl eq_refl)) | split; [ exact (Q _ (or_intror (or_introl eq_refl))) | exact (Q _ (or_intror (or_intror (or_introl eq_refl)))) ] ].
Qed.
