(** C116: a result that fits nearly perfect data at least as well as the truth is nearly the truth. *)
From Coq Require Import Reals Lra Psatz Arith Lia List.
From Verif.Base Require Import Geom Outcome Matrix.
From Verif.Model Require Import Pose Covariance Solver HandEye Pnp CircleFit.
From Verif.Spec Require Import PinHole Frames HomographySpec PnpSpec CircleSpec UniqueSpec NearSpec.
From Verif.Proofs Require Import GeomLemmas RotLemmas AngleAxisLemmas PoseProofs ListLemmas CovarianceProofs HandEyeProofs PnpProofs UniqueLemmas UniqueProofs UniqueCircle
  LimitLemmas NearPose NearHandEye NearProofs NearCircle.
Import ListNotations.
Local Open Scope R_scope.

Lemma cost_of_small errs h : 0 <= h -> (forall e, In e errs -> Rabs e <= h) -> cost_of errs <= h * h.
Proof.
  intros Hh H. unfold cost_of, half_squares.
  assert (S : forall l, (forall e, In e l -> Rabs e <= h) -> fold_right (fun r acc => r * r + acc) 0 l <= INR (List.length l) * (h * h)).
  { induction l as [|a l IH]; intros Q; [ cbn; lra | ]. cbn [fold_right List.length]. rewrite S_INR.
    assert (A : a * a <= h * h). { apply Rsqr_le_abs_1. rewrite (Rabs_pos_eq h Hh). apply Q. left; reflexivity. }
    pose proof (IH (fun e He => Q e (or_intror He))). lra. }
  specialize (S errs H). destruct (Nat.eq_dec (List.length errs) 0) as [Z|Z].
  - destruct errs; [ | discriminate Z ]. cbn. unfold Rdiv. nra.
  - assert (P : 0 < INR (List.length errs)) by (apply lt_0_INR; lia). assert (0 <= INR (List.length errs) * (h * h)) by (apply Rmult_le_pos; nra).
    apply Rmult_le_reg_r with (INR (List.length errs)); [ exact P | ]. unfold Rdiv. rewrite Rmult_assoc, Rinv_l, Rmult_1_r by lra. lra.
Qed.
Lemma unit_square d : 0 < d -> Rmin d 1 * Rmin d 1 <= d /\ 0 < Rmin d 1 /\ Rmin d 1 <= d.
Proof.
  intros Hd. pose proof (Rmin_l d 1). pose proof (Rmin_r d 1). assert (0 < Rmin d 1) by (apply Rmin_pos; lra). split; [ nra | split; assumption ].
Qed.
Lemma Forall2_in_l {A B} (P : A -> B -> Prop) l m a : Forall2 P l m -> In a l -> exists b, In b m /\ P a b.
Proof.
  induction 1 as [|a' b l m Pab F IH]; intros [].
  - subst. exists b. split; [ left; reflexivity | exact Pab ].
  - destruct (IH H) as (b' & Ib & Pb). exists b'. split; [ right; exact Ib | exact Pb ].
Qed.

(** ** Pose estimation *)
Lemma pnp_best2 k T0 cs0 : rigid T0 -> ~ edge_on T0 -> fx k <> 0 -> fy k <> 0 ->
  four_flat_points (map in_target cs0) -> perfect_image k T0 cs0 ->
  forall e, 0 < e -> exists d, 0 < d /\ forall u solve cov p r, honest solve -> optimizePnP u solve cov p = Ok r ->
    pnp_intr p = k -> near_picture d (pnp_correspondences p) cs0 -> all_in_front (pnp_camera_to_target r) (pnp_correspondences p) ->
    pnp_final_cost_per_obs r <= cost_of (flat_map (pixel_error k T0) (pnp_correspondences p)) -> near_pose e (pnp_camera_to_target r) T0.
Proof.
  intros R0 NE Fx Fy FF PI e He. destruct (pnp_near2 k T0 cs0 R0 NE Fx Fy FF PI e He) as (d & Hd & B).
  destruct (unit_square d Hd) as (U1 & U2 & U3). exists (Rmin d 1). split; [ exact U2 | ]. intros u solve cov p r Ho E Ek NP AF Hc.
  apply (B u solve cov p r); auto; [ exact (near_picture_mono _ _ _ _ U3 NP) | ].
  apply Rle_trans with (1 := Hc), Rle_trans with (2 := U1), cost_of_small; [ lra | ].
  intros f If. apply in_flat_map in If as (c & Ic & If). destruct (Forall2_in_l _ _ _ _ NP Ic) as (c0 & I0 & T & P1 & P2).
  destruct (PI c0 I0) as [_ E0]. unfold pixel_error in If. rewrite T, <- E0 in If. cbn [In] in If.
  destruct If as [<-|[<-|[]]]; rewrite Rabs_minus_sym; assumption.
Qed.
Lemma pnp_best3 T0 cs0 : rigid T0 -> not_on_a_line (map in_target cs0) -> perfect_points T0 cs0 ->
  forall e, 0 < e -> exists d, 0 < d /\ forall u solve cov p r, honest solve -> optimizePnP3D u solve cov p = Ok r ->
    Forall2 (near_point d) (pnp3_correspondences p) cs0 ->
    pnp_final_cost_per_obs r <= cost_of (flat_map (point_error T0) (pnp3_correspondences p)) -> near_pose e (pnp_camera_to_target r) T0.
Proof.
  intros R0 FF PI e He. destruct (pnp_near3 T0 cs0 R0 FF PI e He) as (d & Hd & B).
  destruct (unit_square d Hd) as (U1 & U2 & U3). exists (Rmin d 1). split; [ exact U2 | ]. intros u solve cov p r Ho E NP Hc.
  apply (B u solve cov p r); auto; [ apply (Forall2_mono (near_point (Rmin d 1))); [ intros; eapply near_point_mono; eauto | exact NP ] | ].
  apply Rle_trans with (1 := Hc), Rle_trans with (2 := U1), cost_of_small; [ lra | ].
  intros f If. apply in_flat_map in If as (c & Ic & If). destruct (Forall2_in_l _ _ _ _ NP Ic) as (c0 & I0 & T & P1 & P2 & P3).
  pose proof (PI c0 I0) as E0. unfold point_error in If. rewrite T, <- E0 in If. cbn [In] in If.
  destruct If as [<-|[<-|[<-|[]]]]; rewrite Rabs_minus_sym; assumption.
Qed.

(** ** Hand-eye calibration *)
Lemma f_list {I A} (F : (I -> Prop) -> Prop) (HF : is_filter F) (l : list A) (P : A -> I -> Prop) :
  (forall a, In a l -> F (P a)) -> F (fun x => forall a, In a l -> P a x).
Proof.
  induction l as [|a l IH]; intros H; [ apply (f_all F HF); intros x a [] | ].
  apply (f_imp F HF _ _ (f_and F HF _ _ (H a (or_introl eq_refl)) (IH (fun b Hb => H b (or_intror Hb))))).
  intros x [A1 A2] b [<-|Hb]; auto.
Qed.
Lemma pinhole_tends {I} (F : (I -> Prop) -> Prop) (HF : is_filter F) k (q : I -> vec3) q0 : vtends F q q0 -> 0 < vz q0 ->
  tends F (fun x => px (pinhole k (q x))) (px (pinhole k q0)) /\ tends F (fun x => py (pinhole k (q x))) (py (pinhole k q0)).
Proof.
  intros (X & Y & Z) P. unfold pinhole. cbn [px py].
  split; apply (t_plus F HF); try apply (t_const F HF); first [ apply (t_div F HF); [ apply (t_mult F HF); [ apply (t_const F HF) | assumption ] | assumption | lra ]
    | apply (t_mult F HF); [ apply (t_const F HF) | apply (t_div F HF); [ assumption | assumption | lra ] ] ].
Qed.
Section HandEye.
Context {C : Type} (near : R -> correspondence C -> correspondence C -> Prop) (err : iso -> correspondence C -> list R).
Hypothesis near_mono : forall d d' c c0, d <= d' -> near d c c0 -> near d' c c0.
(** The errors at a pose that tends to the true one are small. *)
Lemma he_truth_small X0 Z0 (os0 : list (observation C)) :
  (forall (F : (list (observation C) -> Prop) -> Prop) S S0 c0, is_filter F -> (exists o0, In o0 os0 /\ S0 = seen_at X0 Z0 o0 /\ In c0 (correspondence_set o0)) -> itends F S S0 ->
     forall h, 0 < h -> exists d, 0 < d /\ F (fun x => forall c f, near d c c0 -> In f (err (S x) c) -> Rabs f <= h)) ->
  forall h, 0 < h -> exists d, 0 < d /\ forall os, Forall2 (near_observation near d) os os0 ->
    forall o c f, In o os -> In c (correspondence_set o) -> In f (err (seen_at X0 Z0 o) c) -> Rabs f <= h.
Proof.
  intros SEN h Hh.
  set (H := fun d (os : list (observation C)) => Forall2 (near_observation near d) os os0).
  assert (A : antitone H).
  { intros d d' x L. apply Forall2_mono. intros a b. apply near_observation_mono; assumption. }
  pose proof (closer_filter H A) as HF. set (F := closer H) in *.
  assert (T : forall m, In m (seq 0 (List.length os0)) -> F (fun os => forall c f, In c (correspondence_set (nth m os no_observation)) -> In f (err (seen_at X0 Z0 (nth m os no_observation)) c) -> Rabs f <= h)).
  { intros m Hm. apply in_seq in Hm as [_ L]. cbn in L. set (o0 := nth m os0 no_observation).
    assert (I0 : In o0 os0) by (apply nth_In, L).
    assert (TO : itends F (fun os => seen_at X0 Z0 (nth m os no_observation)) (seen_at X0 Z0 o0)).
    { unfold seen_at, target_in_camera. apply (i_mul F HF); [ apply (i_inv F HF) | ]; apply (i_mul F HF); try apply (i_const F HF); apply (near_tends F HF);
        intros d Hd; exists d; (split; [ exact Hd | ]); intros x Hx; apply (Forall2_at _ _ _ no_observation no_observation m Hx L). }
    assert (K : F (fun os => forall c0, In c0 (correspondence_set o0) -> forall c f, In c (correspondence_set (nth m os no_observation)) -> (forall d, H d os -> near d c c0) ->
       In f (err (seen_at X0 Z0 (nth m os no_observation)) c) -> Rabs f <= h)).
    { apply (f_list F HF). intros c0 Ic0.
      destruct (SEN F _ _ c0 HF (ex_intro _ o0 (conj I0 (conj eq_refl Ic0))) TO h Hh) as (d & Hd & Q).
      apply (f_imp F HF _ _ (f_and F HF _ _ Q (ex_intro _ d (conj Hd (fun x Hx => Hx)) : F (H d)))). intros os [Q1 Q2] c f Ic N If.
      apply (Q1 c f); [ apply N, Q2 | exact If ]. }
    (* the same position of the list for every closeness *)
    apply (f_imp F HF _ _ (f_and F HF _ _ K (ex_intro _ 1 (conj Rlt_0_1 (fun x Hx => Hx)) : F (H 1)))). intros os [Q1 Q2] c f Ic If.
    pose proof (Forall2_at _ _ _ no_observation no_observation m Q2 L) as (_ & _ & N).
    destruct (In_nth _ _ c Ic) as (j & Lj & Ej). fold o0 in N.
    assert (Lj' : (j < List.length (correspondence_set o0))%nat) by (rewrite <- (Forall2_size _ _ _ N); exact Lj).
    apply (Q1 (nth j (correspondence_set o0) c) (nth_In _ _ Lj') c f Ic); [ | exact If ].
    intros d Hd. pose proof (Forall2_at _ _ _ no_observation no_observation m Hd L) as (_ & _ & N').
    rewrite <- Ej at 1. apply (Forall2_at (near d)); assumption. }
  destruct (f_list F HF _ _ T) as (d & Hd & B). exists d. split; [ exact Hd | ]. intros os NO o c f Io Ic If.
  destruct (In_at os o no_observation Io) as (m & L & E). rewrite <- E in Ic, If.
  apply (B os NO m ltac:(apply in_seq; rewrite <- (Forall2_size _ _ _ NO); lia) c f Ic If).
Qed.
End HandEye.

Lemma he_best2 k X0 Z0 os0 : fx k <> 0 -> fy k <> 0 -> rigid X0 -> rigid Z0 ->
  let seen X Z (o : observation vec2) := target_in_camera X (to_camera_mount o) (to_target_mount o) Z in
  (forall o, In o os0 -> rigid (to_camera_mount o) /\ rigid (to_target_mount o) /\
     four_flat_points (map in_target (correspondence_set o)) /\ ~ edge_on (seen X0 Z0 o) /\ perfect_image k (seen X0 Z0 o) (correspondence_set o)) ->
  two_axes (motions_of (map mounts os0)) ->
  forall e, 0 < e -> exists d, 0 < d /\ forall u solve cov p r, honest solve -> optimize2D3D u solve cov p = Ok r ->
    h2_intr p = k -> plain_obs (h2_observations p) -> Forall2 (near_observation near_pixel d) (h2_observations p) os0 ->
    rigid (he_camera_mount_to_camera r) -> rigid (he_target_mount_to_target r) ->
    (forall o, In o (h2_observations p) -> all_in_front (seen (he_camera_mount_to_camera r) (he_target_mount_to_target r) o) (correspondence_set o)) ->
    he_final_cost_per_obs r <= cost_of (flat_map (fun o => flat_map (pixel_error k (seen X0 Z0 o)) (correspondence_set o)) (h2_observations p)) ->
    near_pose e (he_camera_mount_to_camera r) X0 /\ near_pose e (he_target_mount_to_target r) Z0.
Proof.
  intros Fx Fy RX0 RZ0 seen D TA e He. destruct (he_near2 k X0 Z0 os0 Fx Fy RX0 RZ0 D TA e He) as (d & Hd & B).
  destruct (unit_square d Hd) as (U1 & U2 & U3).
  destruct (he_truth_small near_pixel (pixel_error k) near_pixel_mono X0 Z0 os0) with (h := Rmin d 1) as (d' & Hd' & Q); [ | exact U2 | ].
  { intros F S S0 c0 HF (o0 & I0 & -> & Ic0) TS h Hh. destruct (D o0 I0) as (_ & _ & _ & _ & PI). destruct (PI c0 Ic0) as [F0 E0].
    pose proof (pinhole_tends F HF k _ _ (v_app F HF _ _ _ _ TS (v_const F HF (in_target c0))) (front_pos _ F0)) as [TX TY].
    exists (h / 2). split; [ lra | ].
    apply (f_imp F HF _ _ (f_and F HF _ _ (close_tends F HF _ _ (h / 2) TX ltac:(lra)) (close_tends F HF _ _ (h / 2) TY ltac:(lra)))).
    intros x [A1 A2] c f (T & P1 & P2) If. unfold pixel_error in If. rewrite T in If. fold (seen_at X0 Z0 o0) in A1, A2.
    change (in_image c0 = pinhole k (iso_app (seen_at X0 Z0 o0) (in_target c0))) in E0. rewrite E0 in P1, P2. cbn [In] in If.
    destruct If as [<-|[<-|[]]]; unfold Rabs in *; repeat destruct (Rcase_abs _); lra. }
  exists (Rmin d d'). split; [ apply Rmin_pos; assumption | ]. intros u solve cov p r Ho E Ek PO NP RX RZ AF Hc.
  apply (B u solve cov p r); auto.
  - apply (Forall2_mono (near_observation near_pixel (Rmin d d'))); [ | exact NP ]. intros a b. apply near_observation_mono; [ exact near_pixel_mono | apply Rmin_l ].
  - apply Rle_trans with (1 := Hc), Rle_trans with (2 := U1), cost_of_small; [ lra | ].
    intros f If. apply in_flat_map in If as (o & Io & If). apply in_flat_map in If as (c & Ic & If).
    apply (Q (h2_observations p)) with (o := o) (c := c); auto.
    apply (Forall2_mono (near_observation near_pixel (Rmin d d'))); [ | exact NP ]. intros a b. apply near_observation_mono; [ exact near_pixel_mono | apply Rmin_r ].
Qed.
Lemma he_best3 X0 Z0 os0 : rigid X0 -> rigid Z0 ->
  let seen X Z (o : observation vec3) := target_in_camera X (to_camera_mount o) (to_target_mount o) Z in
  (forall o, In o os0 -> rigid (to_camera_mount o) /\ rigid (to_target_mount o) /\
     not_on_a_line (map in_target (correspondence_set o)) /\ perfect_points (seen X0 Z0 o) (correspondence_set o)) ->
  two_axes (motions_of (map mounts os0)) ->
  forall e, 0 < e -> exists d, 0 < d /\ forall u solve cov p r, honest solve -> optimize3D3D u solve cov p = Ok r ->
    plain_obs (h3_observations p) -> Forall2 (near_observation near_point d) (h3_observations p) os0 ->
    rigid (he_camera_mount_to_camera r) -> rigid (he_target_mount_to_target r) ->
    he_final_cost_per_obs r <= cost_of (flat_map (fun o => flat_map (point_error (seen X0 Z0 o)) (correspondence_set o)) (h3_observations p)) ->
    near_pose e (he_camera_mount_to_camera r) X0 /\ near_pose e (he_target_mount_to_target r) Z0.
Proof.
  intros RX0 RZ0 seen D TA e He. destruct (he_near3 X0 Z0 os0 RX0 RZ0 D TA e He) as (d & Hd & B).
  destruct (unit_square d Hd) as (U1 & U2 & U3).
  destruct (he_truth_small near_point point_error near_point_mono X0 Z0 os0) with (h := Rmin d 1) as (d' & Hd' & Q); [ | exact U2 | ].
  { intros F S S0 c0 HF (o0 & I0 & -> & Ic0) TS h Hh. destruct (D o0 I0) as (_ & _ & _ & PI). pose proof (PI c0 Ic0) as E0.
    destruct (v_app F HF _ _ _ _ TS (v_const F HF (in_target c0))) as (TX & TY & TZ).
    exists (h / 2). split; [ lra | ].
    apply (f_imp F HF _ _ (f_and F HF _ _ (close_tends F HF _ _ (h / 2) TX ltac:(lra)) (f_and F HF _ _ (close_tends F HF _ _ (h / 2) TY ltac:(lra)) (close_tends F HF _ _ (h / 2) TZ ltac:(lra))))).
    intros x (A1 & A2 & A3) c f (T & P1 & P2 & P3) If. unfold point_error in If. rewrite T in If.
    change (in_image c0 = iso_app (seen_at X0 Z0 o0) (in_target c0)) in E0. rewrite E0 in P1, P2, P3. cbn [In] in If.
    destruct If as [<-|[<-|[<-|[]]]]; unfold Rabs in *; repeat destruct (Rcase_abs _); lra. }
  exists (Rmin d d'). split; [ apply Rmin_pos; assumption | ]. intros u solve cov p r Ho E PO NP RX RZ Hc.
  apply (B u solve cov p r); auto.
  - apply (Forall2_mono (near_observation near_point (Rmin d d'))); [ | exact NP ]. intros a b. apply near_observation_mono; [ exact near_point_mono | apply Rmin_l ].
  - apply Rle_trans with (1 := Hc), Rle_trans with (2 := U1), cost_of_small; [ lra | ].
    intros f If. apply in_flat_map in If as (o & Io & If). apply in_flat_map in If as (c & Ic & If).
    apply (Q (h3_observations p)) with (o := o) (c := c); auto.
    apply (Forall2_mono (near_observation near_point (Rmin d d'))); [ | exact NP ]. intros a b. apply near_observation_mono; [ exact near_point_mono | apply Rmin_r ].
Qed.
