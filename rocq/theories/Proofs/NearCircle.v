(** C116: points nearly on a circle give nearly that circle. *)
From Coq Require Import Reals Lra Psatz Arith Lia List.
From Verif.Base Require Import Geom Outcome.
From Verif.Model Require Import Solver CircleFit.
From Verif.Spec Require Import CircleSpec UniqueSpec NearSpec.
From Verif.Proofs Require Import HandEyeProofs CircleFitProofs UniqueLemmas UniqueProofs UniqueCircle LimitLemmas NearProofs.
Import ListNotations.
Local Open Scope R_scope.

Section Limit.
Context {I : Type} (F : (I -> Prop) -> Prop) (HF : is_filter F).
(** The centre from the slacks s1, s2, s3 of three points *)
Definition sum2 (p : vec2) : R := px p * px p + py p * py p.
Definition area2 (p1 p2 p3 : vec2) : R := (px p2 - px p1) * (py p3 - py p1) - (px p3 - px p1) * (py p2 - py p1).
Definition along (p1 p2 : vec2) (s1 s2 : R) : R := (sum2 p2 - sum2 p1 - (s1 - s2)) / 2.
Definition centre_x (p1 p2 p3 : vec2) (s1 s2 s3 : R) : R :=
  (along p1 p2 s1 s2 * (py p3 - py p1) - along p1 p3 s1 s3 * (py p2 - py p1)) / area2 p1 p2 p3.
Definition centre_y (p1 p2 p3 : vec2) (s1 s2 s3 : R) : R :=
  (along p1 p3 s1 s3 * (px p2 - px p1) - along p1 p2 s1 s2 * (px p3 - px p1)) / area2 p1 p2 p3.
Lemma centre_right c q p1 p2 p3 : area2 p1 p2 p3 <> 0 ->
  px c = centre_x p1 p2 p3 (q - sq c p1) (q - sq c p2) (q - sq c p3) /\ py c = centre_y p1 p2 p3 (q - sq c p1) (q - sq c p2) (q - sq c p3).
Proof.
  intros N. unfold centre_x, centre_y, along, sq, sum2. split; (apply (Rmult_eq_reg_r (area2 p1 p2 p3)); [ | exact N ]);
    unfold Rdiv; rewrite ?Rmult_assoc, ?(Rinv_l (area2 p1 p2 p3)) by exact N; unfold area2; field.
Qed.
Ltac tend := repeat first [ assumption | apply (t_minus F HF) | apply (t_plus F HF) | apply (t_mult F HF) | apply (t_const F HF) ].
Lemma circle_tends (c : I -> vec2) (r : I -> R) c0 r0 (p1 p2 p3 : I -> vec2) q1 q2 q3 :
  0 < r0 -> (forall x, 0 <= r x) -> sq c0 q1 = r0 * r0 -> sq c0 q2 = r0 * r0 -> sq c0 q3 = r0 * r0 -> area2 q1 q2 q3 <> 0 ->
  (forall p q, In (p, q) [(p1, q1); (p2, q2); (p3, q3)] -> tends F (fun x => px (p x)) (px q) /\ tends F (fun x => py (p x)) (py q) /\
     tends F (fun x => r x * r x - sq (c x) (p x)) 0) ->
  tends F (fun x => px (c x)) (px c0) /\ tends F (fun x => py (c x)) (py c0) /\ tends F r r0.
Proof.
  intros R0 Rp E1 E2 E3 N D.
  destruct (D p1 q1 ltac:(cbn; auto)) as (X1 & Y1 & S1). destruct (D p2 q2 ltac:(cbn; auto)) as (X2 & Y2 & S2). destruct (D p3 q3 ltac:(cbn; auto)) as (X3 & Y3 & S3).
  assert (TA : tends F (fun x => area2 (p1 x) (p2 x) (p3 x)) (area2 q1 q2 q3)) by (unfold area2; tend).
  assert (NZ : F (fun x => area2 (p1 x) (p2 x) (p3 x) <> 0)).
  { apply (f_imp F HF _ _ (t_away F HF _ _ TA N)). intros x Hx Z. rewrite Z, Rabs_R0 in Hx. pose proof (Rabs_pos_lt _ N). lra. }
  assert (TL : forall p p' q q' (s s' : I -> R), tends F (fun x => px (p x)) (px q) -> tends F (fun x => py (p x)) (py q) -> tends F (fun x => px (p' x)) (px q') ->
    tends F (fun x => py (p' x)) (py q') -> tends F s 0 -> tends F s' 0 -> tends F (fun x => along (p x) (p' x) (s x) (s' x)) (along q q' 0 0)).
  { intros. unfold along, sum2, Rdiv. tend. }
  destruct (centre_right c0 (r0 * r0) q1 q2 q3 N) as [C1 C2]. rewrite E1, E2, E3, Rminus_eq_0 in C1, C2.
  assert (TX : tends F (fun x => px (c x)) (px c0)).
  { rewrite C1. apply (t_ext F HF (fun x => centre_x (p1 x) (p2 x) (p3 x) (r x * r x - sq (c x) (p1 x)) (r x * r x - sq (c x) (p2 x)) (r x * r x - sq (c x) (p3 x)))).
    - apply (f_imp F HF _ _ NZ). intros x Hx. symmetry. apply (proj1 (centre_right (c x) (r x * r x) _ _ _ Hx)).
    - unfold centre_x. apply (t_div F HF); [ | exact TA | exact N ].
      apply (t_minus F HF); apply (t_mult F HF); try (apply (t_minus F HF); assumption);
        [ apply (TL p1 p2 q1 q2 (fun x => r x * r x - sq (c x) (p1 x)) (fun x => r x * r x - sq (c x) (p2 x)))
        | apply (TL p1 p3 q1 q3 (fun x => r x * r x - sq (c x) (p1 x)) (fun x => r x * r x - sq (c x) (p3 x))) ]; assumption. }
  assert (TY : tends F (fun x => py (c x)) (py c0)).
  { rewrite C2. apply (t_ext F HF (fun x => centre_y (p1 x) (p2 x) (p3 x) (r x * r x - sq (c x) (p1 x)) (r x * r x - sq (c x) (p2 x)) (r x * r x - sq (c x) (p3 x)))).
    - apply (f_imp F HF _ _ NZ). intros x Hx. symmetry. apply (proj2 (centre_right (c x) (r x * r x) _ _ _ Hx)).
    - unfold centre_y. apply (t_div F HF); [ | exact TA | exact N ].
      apply (t_minus F HF); apply (t_mult F HF); try (apply (t_minus F HF); assumption);
        [ apply (TL p1 p3 q1 q3 (fun x => r x * r x - sq (c x) (p1 x)) (fun x => r x * r x - sq (c x) (p3 x)))
        | apply (TL p1 p2 q1 q2 (fun x => r x * r x - sq (c x) (p1 x)) (fun x => r x * r x - sq (c x) (p2 x))) ]; assumption. }
  split; [ exact TX | split; [ exact TY | ] ].
  assert (TQ : tends F (fun x => r x * r x) (r0 * r0)).
  { apply (t_ext F HF (fun x => (r x * r x - sq (c x) (p1 x)) + sq (c x) (p1 x))); [ apply (f_all F HF); intros; ring | ].
    rewrite <- (Rplus_0_l (r0 * r0)), <- E1. apply (t_plus F HF); [ exact S1 | ]. unfold sq. tend. }
  apply (t_root F HF); auto. apply (f_imp F HF _ _ (t_away F HF _ _ TQ ltac:(nra))). intros x Hx.
  destruct (Req_dec (r x) 0) as [Z|Z]; [ | pose proof (Rp x); lra ]. rewrite Z, Rmult_0_l, Rabs_R0 in Hx. pose proof (Rabs_pos (r0 * r0)). lra.
Qed.
End Limit.

Lemma circle_near centre radius pts0 : 0 <= radius -> three_different pts0 -> (forall o, In o pts0 -> on_circle centre radius o) ->
  forall e, 0 < e -> exists d, 0 < d /\ forall u solve cov p r, honest solve -> optimizeCircle u solve cov p = Ok r ->
    Forall2 (pixel_close d) (cf_observations p) pts0 -> cf_final_cost_per_obs r <= d ->
    pixel_close e (V2 (cf_x_center r) (cf_y_center r)) centre /\ Rabs (cf_radius r - radius) <= e.
Proof.
  intros HR (q1 & q2 & q3 & I1 & I2 & I3 & N12 & N13 & N23) OC e He.
  assert (S0 : forall q, In q pts0 -> sq centre q = radius * radius) by (intros; apply on_circle_sq; auto).
  pose proof (circle_not_line centre _ q1 q2 q3 (S0 _ I1) (S0 _ I2) (S0 _ I3) N12 N13 N23) as NL.
  assert (Rp : 0 < radius).
  { destruct HR as [P|Z]; [ exact P | exfalso ]. pose proof (S0 _ I1) as A1. pose proof (S0 _ I2) as A2. rewrite <- Z in A1, A2. unfold sq in A1, A2.
    rewrite Rmult_0_l in A1, A2. apply plane_zero in A1, A2. apply N12, vec2_ext; lra. }
  destruct (In_at pts0 q1 (V2 0 0) I1) as (i1 & L1 & E1). destruct (In_at pts0 q2 (V2 0 0) I2) as (i2 & L2 & E2). destruct (In_at pts0 q3 (V2 0 0) I3) as (i3 & L3 & E3).
  set (data := (vec2 * {r : R | 0 <= r} * list vec2)%type).
  set (H := fun d (x : data) => Forall2 (pixel_close d) (snd x) pts0 /\
    forall q, In q (snd x) -> Rabs (proj1_sig (snd (fst x)) * proj1_sig (snd (fst x)) - sq (fst (fst x)) q) <= d).
  assert (A : antitone H).
  { intros d d' x L (H1 & H2). split; [ apply (Forall2_mono (pixel_close d)); [ intros a b; apply pixel_close_mono, L | exact H1 ] | ]. intros q Iq. specialize (H2 q Iq). lra. }
  pose proof (closer_filter H A) as HF. set (F := closer H) in *.
  destruct (circle_tends F HF (fun x => fst (fst x)) (fun x => proj1_sig (snd (fst x))) centre radius
    (fun x => nth i1 (snd x) (V2 0 0)) (fun x => nth i2 (snd x) (V2 0 0)) (fun x => nth i3 (snd x) (V2 0 0)) q1 q2 q3) as (TX & TY & TR); auto.
  { intros [[c [r Hr]] l]. exact Hr. }
  { assert (K : forall i q, (i < List.length pts0)%nat -> nth i pts0 (V2 0 0) = q ->
      tends F (fun x => px (nth i (snd x) (V2 0 0))) (px q) /\ tends F (fun x => py (nth i (snd x) (V2 0 0))) (py q) /\
      tends F (fun x => proj1_sig (snd (fst x)) * proj1_sig (snd (fst x)) - sq (fst (fst x)) (nth i (snd x) (V2 0 0))) 0).
    { intros i q L <-. split; [ | split ]; apply (tends_close F HF); intros d Hd; exists d; (split; [ exact Hd | ]); intros x (H1 & H2).
      - apply (Forall2_at (pixel_close d)); assumption.
      - apply (Forall2_at (pixel_close d)); assumption.
      - rewrite Rminus_0_r. apply H2, nth_In. rewrite (Forall2_size _ _ _ H1). exact L. }
    intros p q Hp. cbn [In] in Hp. destruct Hp as [Q|[Q|[Q|[]]]]; injection Q as <- <-; apply K; assumption. }
  destruct (f_and F HF _ _ (close_tends F HF _ _ _ TX He) (f_and F HF _ _ (close_tends F HF _ _ _ TY He) (close_tends F HF _ _ _ TR He))) as (d & Hd & B).
  set (N := List.length pts0). destruct (both_small N d Hd) as (Hm & M1 & M2).
  exists (Rmin d (cost_for N d)). split; [ exact Hm | ]. intros u solve cov p r Ho E NP Hc.
  pose proof (circle_nonneg _ _ _ _ _ E) as NN.
  destruct (circle_fields _ _ _ _ _ E) as (_ & x & s & Es & _ & Hx & Hy & HRr & _ & Hf & _).
  assert (LN : List.length (cf_observations p) = N) by exact (Forall2_size _ _ _ NP). rewrite LN in Hf.
  destruct (B (V2 (cf_x_center r) (cf_y_center r), exist _ (cf_radius r) NN, cf_observations p)) as (B1 & B2 & B3).
  { split; cbn [fst snd proj1_sig].
    - apply (Forall2_mono (pixel_close (Rmin d (cost_for N d)))); [ intros a b; apply pixel_close_mono, M1 | exact NP ].
    - intros q Iq. apply (cost_for_right N d (final_cost s)); auto; [ unfold N; destruct pts0; [ destruct I1 | discriminate ] | rewrite <- Hf; lra | ].
      apply (honest_small _ _ _ _ _ Ho Es (fun z => [circle_cost (px q) (py q) z])); [ apply in_map_iff; exists q; auto | ].
      left. unfold circle_cost, sq. cbn [px py]. rewrite Hx, Hy, HRr. ring. }
  split; [ split; assumption | exact B3 ].
Qed.
