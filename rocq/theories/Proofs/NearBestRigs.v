(** C116: a result for several cameras, or a circle, that fits nearly perfect data at least as well as the truth is nearly the truth. *)
From Coq Require Import Reals Lra Psatz Arith Lia List.
From Verif.Base Require Import Geom Outcome Matrix.
From Verif.Model Require Import Pose Covariance Solver HandEye BlockSolver MultiCamera CircleFit.
From Verif.Spec Require Import PinHole Frames HomographySpec PnpSpec MultiSpec CircleSpec UniqueSpec NearSpec.
From Verif.Proofs Require Import GeomLemmas RotLemmas AngleAxisLemmas PoseProofs ListLemmas HandEyeProofs PnpProofs
  MultiCameraProofs UniqueLemmas UniqueProofs UniqueCircle UniqueMulti LimitLemmas NearPose NearHandEye NearProofs NearMulti NearCircle NearBest.
Import ListNotations.
Local Open Scope R_scope.

(** The errors of finitely many pictures at poses that tend to the true ones are small. *)
Lemma views_small {I V} (H : R -> I -> Prop) (vs : list V) k (S : V -> I -> iso) S0 (pic : V -> I -> list (correspondence vec2)) pic0 :
  antitone H -> (forall v, In v vs -> itends (closer H) (S v) (S0 v)) ->
  (forall v d x, In v vs -> H d x -> near_picture d (pic v x) (pic0 v)) ->
  (forall v, In v vs -> perfect_image (k v) (S0 v) (pic0 v)) ->
  forall h, 0 < h -> exists d, 0 < d /\ forall x, H d x ->
    cost_of (flat_map (fun v => flat_map (pixel_error (k v) (S v x)) (pic v x)) vs) <= h * h.
Proof.
  intros A TS NP PI h Hh. pose proof (closer_filter H A) as HF. set (F := closer H) in *.
  assert (K : F (fun x => forall v, In v vs -> forall c f, In c (pic v x) -> In f (pixel_error (k v) (S v x) c) -> Rabs f <= h)).
  { apply (f_list F HF). intros v Iv.
    assert (Q : F (fun x => forall c0, In c0 (pic0 v) -> forall c f, near_pixel (h / 2) c c0 -> In f (pixel_error (k v) (S v x) c) -> Rabs f <= h)).
    { apply (f_list F HF). intros c0 I0. destruct (PI v Iv c0 I0) as [F0 E0].
      pose proof (pinhole_tends F HF (k v) _ _ (v_app F HF _ _ _ _ (TS v Iv) (v_const F HF (in_target c0))) (front_pos _ F0)) as [TX TY].
      apply (f_imp F HF _ _ (f_and F HF _ _ (close_tends F HF _ _ (h / 2) TX ltac:(lra)) (close_tends F HF _ _ (h / 2) TY ltac:(lra)))).
      intros x [A1 A2] c f (T & P1 & P2) If. unfold pixel_error in If. rewrite T in If. rewrite E0 in P1, P2. cbn [In] in If.
      destruct If as [<-|[<-|[]]]; unfold Rabs in *; repeat destruct (Rcase_abs _); lra. }
    apply (f_imp F HF _ _ (f_and F HF _ _ Q (ex_intro _ (h / 2) (conj (Rdiv_lt_0_compat h 2 Hh Rlt_0_2) (fun x Hx => Hx)) : F (H (h / 2))))).
    intros x [Q1 Q2] c f Ic If. destruct (Forall2_in_l _ _ _ _ (NP v _ _ Iv Q2) Ic) as (c0 & I0 & N). exact (Q1 c0 I0 c f N If). }
  destruct K as (d & Hd & B). exists d. split; [ exact Hd | ]. intros x Hx. apply cost_of_small; [ lra | ].
  intros f If. apply in_flat_map in If as (v & Iv & If). apply in_flat_map in If as (c & Ic & If). exact (B x Hx v Iv c f Ic If).
Qed.
Lemma flat_map_pairs {A} (f : nat -> nat -> list A) images l :
  flat_map (fun v => f (fst v) (snd v)) (flat_map (fun c => map (pair c) (seq 0 (images c))) l) =
  flat_map (fun c => flat_map (fun i => f c i) (seq 0 (images c))) l.
Proof.
  induction l as [|c l IH]; [ reflexivity | ]. cbn [flat_map]. rewrite flat_map_app, IH. f_equal.
  generalize (seq 0 (images c)) as m. induction m as [|i m IHm]; [ reflexivity | ]. cbn [map flat_map fst snd]. rewrite IHm. reflexivity.
Qed.
Lemma in_pairs n images v : In v (flat_map (fun c => map (pair c) (seq 0 (images c))) (seq 0 n)) -> (fst v < n)%nat /\ (snd v < images (fst v))%nat.
Proof.
  intros H. apply in_flat_map in H as (c & Hc & H). apply in_map_iff in H as (i & <- & Hi). apply in_seq in Hc. apply in_seq in Hi. cbn [fst snd]. lia.
Qed.

Lemma mpnp_best p0 B0 :
  let n := List.length (mp_base_to_camera p0) in
  let k c := nth c (mp_intr p0) intr0 in
  let image p c := nth c (mp_image_observations p) [] in
  let seen p B c := iso_mul (iso_inv (nth c (mp_base_to_camera p) iso_id)) B in
  (forall T, In T (mp_base_to_camera p0) -> rigid T) -> rigid B0 ->
  (forall c, (c < n)%nat -> perfect_image (k c) (seen p0 B0 c) (image p0 c)) ->
  (exists c, (c < n)%nat /\ usable (k c) (seen p0 B0 c) (image p0 c)) ->
  forall e, 0 < e -> exists d, 0 < d /\ forall solve p r, honest_blocks solve -> optimizeMpnp solve p = Ok r -> mpnp_sizes p ->
    (forall T, In T (mp_base_to_camera p) -> plain_pose T) -> near_mpnp d p p0 -> rigid (mr_base_to_target r) ->
    (forall c, (c < n)%nat -> all_in_front (seen p (mr_base_to_target r) c) (image p c)) ->
    mr_final_cost_per_obs r <= cost_of (flat_map (fun c => flat_map (pixel_error (k c) (seen p B0 c)) (image p c)) (seq 0 n)) ->
    near_pose e (mr_base_to_target r) B0.
Proof.
  intros n k image seen RC0 RB0 PI (c & Hc & Us) e He.
  destruct (mpnp_near p0 B0 RC0 RB0 (ex_intro _ c (conj Hc (conj Us (PI c Hc)))) e He) as (d & Hd & B).
  destruct (unit_square d Hd) as (U1 & U2 & U3).
  set (H := fun d p => near_mpnp d p p0). assert (A : antitone H) by (intros ? ? ?; apply near_mpnp_mono).
  pose proof (closer_filter H A) as HF.
  destruct (views_small H (seq 0 n) k (fun c p => seen p B0 c) (seen p0 B0) (fun c p => image p c) (image p0) A) with (h := Rmin d 1) as (d' & Hd' & Q); [ | | | exact U2 | ].
  { intros c' Hc'. apply in_seq in Hc' as [_ L]. cbn in L. apply (i_mul _ HF); [ apply (i_inv _ HF) | apply (i_const _ HF) ].
    apply (near_tends _ HF). intros t Ht. exists t. split; [ exact Ht | ]. intros p (_ & N & _). apply (Forall2_at _ _ _ _ _ _ N L). }
  { intros c' t p _ (_ & _ & N). apply Forall2_every; [ exact N | constructor ]. }
  { intros c' Hc'. apply in_seq in Hc' as [_ L]. apply PI, L. }
  exists (Rmin d d'). split; [ apply Rmin_pos; assumption | ]. intros solve p r Ho E Sz PC NP RR AF Hf.
  apply (B solve p r); auto; [ exact (near_mpnp_mono _ _ _ _ (Rmin_l d d') NP) | ].
  apply Rle_trans with (1 := Hf), Rle_trans with (2 := U1), Q. exact (near_mpnp_mono _ _ _ _ (Rmin_r d d') NP).
Qed.

Lemma static_best p0 C0 Z0 :
  let n := List.length (sp_wrist_poses p0) in
  let k c := nth c (sp_intr p0) intr0 in
  let wrist p c i := nth i (nth c (sp_wrist_poses p) []) iso_id in
  let images c := List.length (nth c (sp_wrist_poses p0) []) in
  let image p c i := nth i (nth c (sp_image_observations p) []) [] in
  let seen p C Z c i := iso_mul (iso_inv (C c)) (iso_mul (wrist p c i) Z) in
  (forall c W, In W (nth c (sp_wrist_poses p0) []) -> rigid W) ->
  (forall c, (c < n)%nat -> rigid (C0 c)) -> rigid Z0 ->
  (forall c i, (c < n)%nat -> (i < images c)%nat -> perfect_image (k c) (seen p0 C0 Z0 c i) (image p0 c i)) ->
  (exists c chosen, (c < n)%nat /\
     (forall i, In i chosen -> (i < images c)%nat /\ usable (k c) (seen p0 C0 Z0 c i) (image p0 c i)) /\
     two_axes (motions_of (map (wrist p0 c) chosen))) ->
  (forall c, (c < n)%nat -> exists i, (i < images c)%nat /\ usable (k c) (seen p0 C0 Z0 c i) (image p0 c i)) ->
  forall e, 0 < e -> exists d, 0 < d /\ forall u solve cov p r, honest_blocks solve -> optimizeStatic u solve cov p = Ok r ->
    static_sizes p -> plain_wrists p -> near_static d p p0 ->
    (forall T, In T (sr_base_to_camera r) -> rigid T) -> rigid (sr_wrist_to_target r) ->
    let found c := nth c (sr_base_to_camera r) iso_id in
    (forall c i, (c < n)%nat -> (i < images c)%nat -> all_in_front (seen p found (sr_wrist_to_target r) c i) (image p c i)) ->
    sr_final_cost_per_obs r <= cost_of (flat_map (fun c => flat_map (fun i => flat_map (pixel_error (k c) (seen p C0 Z0 c i)) (image p c i)) (seq 0 (images c))) (seq 0 n)) ->
    (forall c, (c < n)%nat -> near_pose e (found c) (C0 c)) /\ near_pose e (sr_wrist_to_target r) Z0.
Proof.
  intros n k wrist images image seen RW0 RC0 RZ0 PI TA Us e He.
  destruct (static_near p0 C0 Z0 RW0 RC0 RZ0 PI TA Us e He) as (d & Hd & B).
  destruct (unit_square d Hd) as (U1 & U2 & U3).
  set (H := fun d p => near_static d p p0). assert (A : antitone H) by (intros ? ? ?; apply near_static_mono).
  pose proof (closer_filter H A) as HF.
  destruct (views_small H (flat_map (fun c => map (pair c) (seq 0 (images c))) (seq 0 n)) (fun v => k (fst v)) (fun v p => seen p C0 Z0 (fst v) (snd v))
    (fun v => seen p0 C0 Z0 (fst v) (snd v)) (fun v p => image p (fst v) (snd v)) (fun v => image p0 (fst v) (snd v)) A) with (h := Rmin d 1) as (d' & Hd' & Q); [ | | | exact U2 | ].
  { intros v Hv. apply in_pairs in Hv as [L1 L2]. apply (i_mul _ HF); [ apply (i_const _ HF) | apply (i_mul _ HF); [ | apply (i_const _ HF) ] ].
    apply (near_tends _ HF). intros t Ht. exists t. split; [ exact Ht | ]. intros p (_ & N & _).
    apply (Forall2_at _ _ _ _ _ _ (Forall2_at _ _ _ _ _ _ N L1) L2). }
  { intros v t p _ (_ & _ & N). apply picture_nth, N. }
  { intros v Hv. apply in_pairs in Hv as [L1 L2]. apply PI; assumption. }
  exists (Rmin d d'). split; [ apply Rmin_pos; assumption | ]. intros u solve cov p r Ho E Sz PW NP RC RZ found AF Hf.
  apply (B u solve cov p r); auto; [ exact (near_static_mono _ _ _ _ (Rmin_l d d') NP) | ].
  apply Rle_trans with (1 := Hf), Rle_trans with (2 := U1).
  rewrite <- (flat_map_pairs (fun c i => flat_map (pixel_error (k c) (seen p C0 Z0 c i)) (image p c i)) images (seq 0 n)).
  apply Q. exact (near_static_mono _ _ _ _ (Rmin_r d d') NP).
Qed.

Lemma wrist_best p0 K0 Z0 :
  let n := List.length (wp_base_to_camera_guess p0) in
  let images := List.length (wp_wrist_poses p0) in
  let k c := nth c (wp_intr p0) intr0 in
  let wrist p i := nth i (wp_wrist_poses p) iso_id in
  let image p c i := nth i (nth c (wp_image_observations p) []) [] in
  let moved p c := iso_mul K0 (nth c (wp_base_to_camera_guess p) iso_id) in
  let seen p C Z c i := iso_mul (iso_inv (C c)) (iso_mul (wrist p i) Z) in
  (forall T, In T (wp_wrist_poses p0) -> rigid T) -> (forall T, In T (wp_base_to_camera_guess p0) -> rigid T) -> rigid K0 -> rigid Z0 ->
  (forall c i, (c < n)%nat -> (i < images)%nat -> perfect_image (k c) (seen p0 (moved p0) Z0 c i) (image p0 c i)) ->
  (exists c chosen, (c < n)%nat /\
     (forall i, In i chosen -> (i < images)%nat /\ usable (k c) (seen p0 (moved p0) Z0 c i) (image p0 c i)) /\
     two_axes (motions_of (map (wrist p0) chosen))) ->
  forall e, 0 < e -> exists d, 0 < d /\ forall solve p r, honest_blocks solve -> optimizeWrist solve p = Ok r -> wrist_sizes p ->
    (forall T, In T (wp_wrist_poses p) -> plain_pose T) -> (forall T, In T (wp_base_to_camera_guess p) -> plain_pose T) -> near_wrist d p p0 ->
    (forall T, In T (wr_base_to_camera r) -> rigid T) -> rigid (wr_wrist_to_target r) ->
    let found c := nth c (wr_base_to_camera r) iso_id in
    (forall c i, (c < n)%nat -> (i < images)%nat -> all_in_front (seen p found (wr_wrist_to_target r) c i) (image p c i)) ->
    wr_final_cost_per_obs r <= cost_of (flat_map (fun c => flat_map (fun i => flat_map (pixel_error (k c) (seen p (moved p) Z0 c i)) (image p c i)) (seq 0 images)) (seq 0 n)) ->
    (forall c, (c < n)%nat -> near_pose e (found c) (moved p0 c)) /\ near_pose e (wr_wrist_to_target r) Z0.
Proof.
  intros n images k wrist image moved seen RW0 RC0 RK0 RZ0 PI TA e He.
  destruct (wrist_near p0 K0 Z0 RW0 RC0 RK0 RZ0 PI TA e He) as (d & Hd & B).
  destruct (unit_square d Hd) as (U1 & U2 & U3).
  set (H := fun d p => near_wrist d p p0). assert (A : antitone H) by (intros ? ? ?; apply near_wrist_mono).
  pose proof (closer_filter H A) as HF.
  destruct (views_small H (flat_map (fun c => map (pair c) (seq 0 images)) (seq 0 n)) (fun v => k (fst v)) (fun v p => seen p (moved p) Z0 (fst v) (snd v))
    (fun v => seen p0 (moved p0) Z0 (fst v) (snd v)) (fun v p => image p (fst v) (snd v)) (fun v => image p0 (fst v) (snd v)) A) with (h := Rmin d 1) as (d' & Hd' & Q); [ | | | exact U2 | ].
  { intros v Hv. apply (in_pairs n (fun _ => images)) in Hv as [L1 L2]. apply (i_mul _ HF); [ apply (i_inv _ HF) | ]; apply (i_mul _ HF); try apply (i_const _ HF);
      apply (near_tends _ HF); intros t Ht; exists t; (split; [ exact Ht | ]); intros p (_ & N1 & N2 & _).
    - apply (Forall2_at _ _ _ _ _ _ N1 L1).
    - apply (Forall2_at _ _ _ _ _ _ N2 L2). }
  { intros v t p _ (_ & _ & _ & N). apply picture_nth, N. }
  { intros v Hv. apply (in_pairs n (fun _ => images)) in Hv as [L1 L2]. apply PI; assumption. }
  exists (Rmin d d'). split; [ apply Rmin_pos; assumption | ]. intros solve p r Ho E Sz PW PC NP RC RZ found AF Hf.
  apply (B solve p r); auto; [ exact (near_wrist_mono _ _ _ _ (Rmin_l d d') NP) | ].
  apply Rle_trans with (1 := Hf), Rle_trans with (2 := U1).
  rewrite <- (flat_map_pairs (fun c i => flat_map (pixel_error (k c) (seen p (moved p) Z0 c i)) (image p c i)) (fun _ => images) (seq 0 n)).
  apply Q. exact (near_wrist_mono _ _ _ _ (Rmin_r d d') NP).
Qed.

Lemma only_best p0 C0 B0 :
  let n := List.length (op_image_observations p0) in
  let images := List.length (op_base_to_target_guess p0) in
  let k c := nth c (op_intr p0) intr0 in
  let image p c i := nth i (nth c (op_image_observations p) []) [] in
  let seen (C B : nat -> iso) c i := iso_mul (iso_inv (C c)) (B i) in
  let good c i := (c < n)%nat /\ (i < images)%nat /\ usable (k c) (seen C0 B0 c i) (image p0 c i) in
  (0 < images)%nat -> plain_pose (C0 0%nat) -> (forall c, (c < n)%nat -> rigid (C0 c)) -> (forall i, (i < images)%nat -> rigid (B0 i)) ->
  (forall c i, (c < n)%nat -> (i < images)%nat -> perfect_image (k c) (seen C0 B0 c i) (image p0 c i)) ->
  forall e, 0 < e -> exists d, 0 < d /\ forall solve p r, honest_blocks solve -> leaves_others solve -> optimizeOnly solve p = Ok r -> only_sizes p ->
    op_fix_first_camera p = true -> nth_error (op_base_to_camera_guess p) 0 = Some (C0 0%nat) -> near_only d p p0 ->
    (forall T, In T (or_base_to_camera r) -> rigid T) -> (forall T, In T (or_base_to_target r) -> rigid T) ->
    let camera c := nth c (or_base_to_camera r) iso_id in
    let target i := nth i (or_base_to_target r) iso_id in
    (forall c i, (c < n)%nat -> (i < images)%nat -> all_in_front (seen camera target c i) (image p c i)) ->
    or_final_cost_per_obs r <= cost_of (flat_map (fun c => flat_map (fun i => flat_map (pixel_error (k c) (seen C0 B0 c i)) (image p c i)) (seq 0 images)) (seq 0 n)) ->
    (forall c, linked_camera good 0 c -> (c < n)%nat -> near_pose e (camera c) (C0 c)) /\
    (forall i, linked_image good 0 i -> (i < images)%nat -> near_pose e (target i) (B0 i)).
Proof.
  intros n images k image seen good L0 P0 RC0 RB0 PI e He.
  destruct (only_near p0 C0 B0 L0 P0 RC0 RB0 PI e He) as (d & Hd & B).
  destruct (unit_square d Hd) as (U1 & U2 & U3).
  set (H := fun d p => near_only d p p0). assert (A : antitone H) by (intros ? ? ?; apply near_only_mono).
  pose proof (closer_filter H A) as HF.
  destruct (views_small H (flat_map (fun c => map (pair c) (seq 0 images)) (seq 0 n)) (fun v => k (fst v)) (fun v p => seen C0 B0 (fst v) (snd v))
    (fun v => seen C0 B0 (fst v) (snd v)) (fun v p => image p (fst v) (snd v)) (fun v => image p0 (fst v) (snd v)) A) with (h := Rmin d 1) as (d' & Hd' & Q); [ | | | exact U2 | ].
  { intros v _. apply (i_const _ HF). }
  { intros v t p _ (_ & N & _). apply picture_nth, N. }
  { intros v Hv. apply (in_pairs n (fun _ => images)) in Hv as [L1 L2]. apply PI; assumption. }
  exists (Rmin d d'). split; [ apply Rmin_pos; assumption | ]. intros solve p r Ho Lo E Sz Fx G0 NP RC RZ camera target AF Hf.
  apply (B solve p r); auto; [ exact (near_only_mono _ _ _ _ (Rmin_l d d') NP) | ].
  apply Rle_trans with (1 := Hf), Rle_trans with (2 := U1).
  rewrite <- (flat_map_pairs (fun c i => flat_map (pixel_error (k c) (seen C0 B0 c i)) (image p c i)) (fun _ => images) (seq 0 n)).
  apply Q. exact (near_only_mono _ _ _ _ (Rmin_r d d') NP).
Qed.

Lemma Rabs_between_0 x b : Rabs x <= b -> - b <= x <= b.
Proof. unfold Rabs. destruct (Rcase_abs x); lra. Qed.
Lemma circle_best centre radius pts0 : 0 <= radius -> three_different pts0 -> (forall o, In o pts0 -> on_circle centre radius o) ->
  forall e, 0 < e -> exists d, 0 < d /\ forall u solve cov p r, honest solve -> optimizeCircle u solve cov p = Ok r ->
    Forall2 (pixel_close d) (cf_observations p) pts0 ->
    cf_final_cost_per_obs r <= cost_of (map (fun o => radius * radius - dist2 o centre * dist2 o centre) (cf_observations p)) ->
    pixel_close e (V2 (cf_x_center r) (cf_y_center r)) centre /\ Rabs (cf_radius r - radius) <= e.
Proof.
  intros HR T3 OC e He. destruct (circle_near centre radius pts0 HR T3 OC e He) as (d & Hd & B).
  destruct (unit_square d Hd) as (U1 & U2 & U3). set (h := Rmin d 1) in *.
  assert (h1 : h <= 1) by apply Rmin_r. set (t := h / (2 * (2 * radius + 2))).
  assert (Rp : 0 < 2 * (2 * radius + 2)) by lra. assert (Et : t * (2 * (2 * radius + 2)) = h) by (unfold t; field; lra).
  assert (Tp : 0 < t) by (apply Rmult_lt_reg_r with (1 := Rp); lra).
  exists (Rmin d t). split; [ apply Rmin_pos; assumption | ]. intros u solve cov p r Ho E NP Hf.
  pose proof (Rmin_l d t). pose proof (Rmin_r d t).
  apply (B u solve cov p r); auto; [ apply (Forall2_mono (pixel_close (Rmin d t))); [ intros a b; apply pixel_close_mono; lra | exact NP ] | ].
  apply Rle_trans with (1 := Hf), Rle_trans with (2 := U1), cost_of_small; [ lra | ].
  intros f If. apply in_map_iff in If as (o & <- & Io). destruct (Forall2_in_l _ _ _ _ NP Io) as (q & Iq & P1 & P2).
  pose proof (on_circle_sq _ _ _ (OC q Iq)) as S. unfold sq in S.
  assert (D : dist2 o centre * dist2 o centre = (px o - px centre) * (px o - px centre) + (py o - py centre) * (py o - py centre)).
  { apply sqrt_sqrt. pose proof (Rle_0_sqr (px o - px centre)) as X1. pose proof (Rle_0_sqr (py o - py centre)) as X2. unfold Rsqr in *. lra. }
  rewrite D, <- S.
  set (a := px q - px centre) in *. set (b := py q - py centre) in *. set (x := px o - px q) in *. set (y := py o - py q) in *.
  replace (px o - px centre) with (a + x) by (unfold a, x; ring). replace (py o - py centre) with (b + y) by (unfold b, y; ring).
  assert (Ba : - radius <= a <= radius) by (split; apply Rnot_lt_le; intros X; nra).
  assert (Bb : - radius <= b <= radius) by (split; apply Rnot_lt_le; intros X; nra).
  pose proof (Rabs_between_0 _ _ P1). pose proof (Rabs_between_0 _ _ P2). apply Rabs_le.
  assert (t <= 1) by nra. assert (- t <= x <= t) by lra. assert (- t <= y <= t) by lra.
  assert (Q : forall a x, - radius <= a <= radius -> - t <= x <= t -> - (2 * radius * t) <= 2 * a * x <= 2 * radius * t) by (intros; split; nra).
  pose proof (Q a x Ba ltac:(lra)). pose proof (Q b y Bb ltac:(lra)).
  assert (x * x <= t) by nra. assert (y * y <= t) by nra. assert (0 <= x * x) by nra. assert (0 <= y * y) by nra.
  split; nra.
Qed.
