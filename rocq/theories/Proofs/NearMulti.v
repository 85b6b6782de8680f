(** C116: nearly perfect data give nearly the true rig. *)
From Coq Require Import Reals Lra Psatz Arith Lia List Classical_Prop.
From Verif.Base Require Import Geom Outcome Matrix.
From Verif.Model Require Import Pose Covariance Solver HandEye BlockSolver MultiCamera.
From Verif.Spec Require Import PinHole Frames HomographySpec PnpSpec MultiSpec UniqueSpec NearSpec.
From Verif.Proofs Require Import GeomLemmas RotLemmas AngleAxisLemmas PoseProofs ListLemmas CovarianceProofs HandEyeProofs PnpProofs
  MultiCameraProofs UniqueLemmas UniqueProofs UniqueMulti LimitLemmas NearPose NearHandEye NearProofs.
Import ListNotations.
Local Open Scope R_scope.

Lemma blocks_small {V} (solve : block_solver) blocks m0 m s (err : V -> list R) vs : honest_blocks solve ->
  solve blocks m0 = (m, s) -> map (fun b => rb_eval b m) blocks = map err vs ->
  forall v, In v vs -> forall e, In e (err v) -> e * e <= 2 * final_cost s.
Proof.
  intros H E M v Iv e Ie. specialize (H blocks m0). rewrite E in H. rewrite H.
  rewrite flat_map_concat_map, M, <- flat_map_concat_map. apply square_below, in_flat_map. eauto.
Qed.
Lemma seen_small k S x d : in_front (iso_app S (in_target x)) -> (forall e, In e (seen_error k S x) -> Rabs e <= d) ->
  pixel_close d (pinhole k (iso_app S (in_target x))) (in_image x).
Proof.
  intros F Q. unfold seen_error in Q. rewrite arr_pinhole in Q by (apply front_pos in F; lra).
  split; [ exact (Q _ (or_introl eq_refl)) | exact (Q _ (or_intror (or_introl eq_refl))) ].
Qed.
Lemma Forall2_every {A B} (P : A -> B -> Prop) l m d e i : Forall2 P l m -> P d e -> P (nth i l d) (nth i m e).
Proof.
  intros H Pd. destruct (lt_dec i (List.length m)) as [L|L]; [ apply Forall2_at; assumption | ].
  rewrite !nth_overflow; [ exact Pd | lia | rewrite (Forall2_size _ _ _ H); lia ].
Qed.
Lemma picture_nth d ps ps0 c i : near_pictures d ps ps0 -> near_picture d (nth i (nth c ps []) []) (nth i (nth c ps0 []) []).
Proof. intros H. apply Forall2_every; [ apply Forall2_every; [ exact H | constructor ] | constructor ]. Qed.
Lemma near_pictures_mono d d' ps ps0 : d <= d' -> near_pictures d ps ps0 -> near_pictures d' ps ps0.
Proof. intros L. apply Forall2_mono. intros a b. apply Forall2_mono. intros. eapply near_picture_mono; eauto. Qed.
Lemma near_poses_mono d d' l m : d <= d' -> Forall2 (near_pose d) l m -> Forall2 (near_pose d') l m.
Proof. intros L. apply Forall2_mono. intros. eapply near_pose_mono; eauto. Qed.
Lemma flat_map_size {A B} (f g : A -> list B) l : (forall a, In a l -> List.length (f a) = List.length (g a)) ->
  List.length (flat_map f l) = List.length (flat_map g l).
Proof. induction l as [|a l IH]; intros H; [ reflexivity | ]. cbn. rewrite !app_length, H, IH; auto; [ intros; apply H; right; assumption | left; reflexivity ]. Qed.
Lemma views_size d ps ps0 order : near_pictures d ps ps0 -> List.length (views ps order) = List.length (views ps0 order).
Proof. intros H. apply flat_map_size. intros [c i] _. rewrite !map_length. apply (Forall2_size _ _ _ (picture_nth d ps ps0 c i H)). Qed.
Lemma camera_major_same f g n : (forall c, f c = g c) -> camera_major f n = camera_major g n.
Proof. intros H. apply flat_map_ext. intros c. rewrite H. reflexivity. Qed.
Lemma usable_tends {I} (F : (I -> Prop) -> Prop) k (S : I -> iso) S0 cs cs0 : is_filter F -> rigid S0 -> usable k S0 cs0 -> perfect_image k S0 cs0 ->
  F (fun x => rigid (S x)) -> (forall d, 0 < d -> F (fun x => near_picture d (cs x) cs0)) -> (forall d, 0 < d -> F (fun x => fits2 k d (S x) (cs x))) -> itends F S S0.
Proof. intros HF R0 (Fx & Fy & FF & NE) PI. apply picture_fits; assumption. Qed.
(** Finitely many things that come true together *)
Lemma f_below {I} (F : (I -> Prop) -> Prop) (HF : is_filter F) n (P : nat -> I -> Prop) :
  (forall c, (c < n)%nat -> F (P c)) -> F (fun x => forall c, (c < n)%nat -> P c x).
Proof.
  induction n as [|n IH]; intros H; [ apply (f_all F HF); intros; lia | ].
  apply (f_imp F HF _ _ (f_and F HF _ _ (IH (fun c L => H c (Nat.lt_lt_succ_r _ _ L))) (H n (Nat.lt_succ_diag_r n)))).
  intros x [A B] c L. destruct (Nat.eq_dec c n) as [->|D]; [ exact B | apply A; lia ].
Qed.

(** ** Multi-camera PnP *)
Lemma near_mpnp_mono d d' p p0 : d <= d' -> near_mpnp d p p0 -> near_mpnp d' p p0.
Proof.
  intros L (A & B & C). split; [ exact A | split; [ exact (near_poses_mono _ _ _ _ L B) | ] ].
  apply (Forall2_mono (near_picture d)); [ intros; eapply near_picture_mono; eauto | exact C ].
Qed.
Lemma mpnp_near p0 B0 :
  let n := List.length (mp_base_to_camera p0) in
  let k c := nth c (mp_intr p0) intr0 in
  let image p c := nth c (mp_image_observations p) [] in
  let seen p B c := iso_mul (iso_inv (nth c (mp_base_to_camera p) iso_id)) B in
  (forall T, In T (mp_base_to_camera p0) -> rigid T) -> rigid B0 ->
  (exists c, (c < n)%nat /\ usable (k c) (seen p0 B0 c) (image p0 c) /\ perfect_image (k c) (seen p0 B0 c) (image p0 c)) ->
  forall e, 0 < e -> exists d, 0 < d /\ forall solve p r, honest_blocks solve -> optimizeMpnp solve p = Ok r -> mpnp_sizes p ->
    (forall T, In T (mp_base_to_camera p) -> plain_pose T) -> near_mpnp d p p0 -> rigid (mr_base_to_target r) ->
    (forall c, (c < n)%nat -> all_in_front (seen p (mr_base_to_target r) c) (image p c)) ->
    mr_final_cost_per_obs r <= d -> near_pose e (mr_base_to_target r) B0.
Proof.
  intros n k image seen RC0 RB0 (c & Hc & Us & PI) e He.
  set (H := fun d (x : mpnp_problem * iso) => near_mpnp d (fst x) p0 /\ rigid (snd x) /\ (forall T, In T (mp_base_to_camera (fst x)) -> rigid T) /\
    fits2 (k c) d (seen (fst x) (snd x) c) (image (fst x) c)).
  assert (A : antitone H).
  { intros d d' x L (H1 & H2 & H3 & H4). split; [ exact (near_mpnp_mono _ _ _ _ L H1) | split; [ exact H2 | split; [ exact H3 | exact (fits2_mono _ _ _ _ _ L H4) ] ] ]. }
  pose proof (closer_filter H A) as HF. set (F := closer H) in *.
  assert (RC : F (fun x => rigid (nth c (mp_base_to_camera (fst x)) iso_id))).
  { apply closer_always. intros d x ((_ & N & _) & _ & R & _). apply R, nth_In. rewrite (Forall2_size _ _ _ N). exact Hc. }
  assert (RB : F (fun x => rigid (snd x))) by (apply closer_always; intros d x Hx; exact (proj1 (proj2 Hx))).
  assert (TC : itends F (fun x => nth c (mp_base_to_camera (fst x)) iso_id) (nth c (mp_base_to_camera p0) iso_id)).
  { apply (near_tends F HF). intros d Hd. exists d. split; [ exact Hd | ]. intros x ((_ & N & _) & _). apply (Forall2_at _ _ _ _ _ _ N Hc). }
  assert (R0 : rigid (nth c (mp_base_to_camera p0) iso_id)) by (apply RC0, nth_In, Hc).
  assert (TS : itends F (fun x => seen (fst x) (snd x) c) (seen p0 B0 c)).
  { apply (usable_tends F (k c) _ _ (fun x => image (fst x) c) (image p0 c)); auto.
    - apply rigid_mul; [ apply rigid_inv, R0 | exact RB0 ].
    - apply (f_imp F HF _ _ (f_and F HF _ _ RC RB)). intros x [R1 R2]. apply rigid_mul; [ apply rigid_inv, R1 | exact R2 ].
    - intros d Hd. exists d. split; [ exact Hd | ]. intros x ((_ & _ & N) & _). apply Forall2_every; [ exact N | constructor ].
    - intros d Hd. exists d. split; [ exact Hd | ]. intros x Hx. apply Hx. }
  assert (TB : itends F (fun x => snd x) B0).
  { pose proof (i_mul F HF _ _ _ _ TC TS) as T. unfold seen in T at 2. rewrite <- iso_mul_assoc, iso_inv_r, iso_mul_id_l in T by exact R0.
    refine (i_ext F HF _ _ _ _ T). apply (f_imp F HF _ _ RC). intros x R1. unfold seen. rewrite <- iso_mul_assoc, iso_inv_r, iso_mul_id_l by exact R1. reflexivity. }
  destruct (tends_near F HF _ _ _ TB He) as (d & Hd & B).
  set (N := (2 * List.length (mpnp_views p0))%nat). destruct (both_small N d Hd) as (Hm & M1 & M2).
  exists (Rmin d (cost_for N d)). split; [ exact Hm | ]. intros solve p r Ho E Sz PC NP RR AF Hf'.
  pose proof NP as (Ei & NC & NI).
  destruct (mpnp_right p Sz PC) as (blocks & Ev & Res).
  destruct (Res solve) as (m0 & m & s & r' & _ & Es & Er & _ & Ht & _ & Hf).
  rewrite Er in E. injection E as ->. specialize (Ev m). rewrite <- Ht in Ev.
  assert (Ln : List.length (mp_base_to_camera p) = n) by exact (Forall2_size _ _ _ NC).
  assert (LN : (2 * List.length (mpnp_views p))%nat = N).
  { unfold N, mpnp_views. rewrite Ln. fold n. f_equal. apply flat_map_size. intros c' _. rewrite !map_length.
    apply (Forall2_size (near_pixel (Rmin d (cost_for N d)))). change (near_picture (Rmin d (cost_for N d)) (nth c' (mp_image_observations p) []) (nth c' (mp_image_observations p0) [])).
    apply Forall2_every; [ exact NI | constructor ]. }
  destruct (usable_nonempty _ _ _ Us) as [x0 Hx0].
  assert (Nn : N <> 0%nat) by (pose proof (nonempty_in _ _ (proj2 (in_mpnp_views p0 c x0) (conj Hc Hx0))); unfold N; lia).
  apply (B (p, mr_base_to_target r)). split; [ exact (near_mpnp_mono _ _ _ _ M1 NP) | ]. cbn [fst snd]. split; [ exact RR | ].
  split; [ intros T HT; apply plain_rigid, PC, HT | ]. split; [ apply AF, Hc | ]. intros x Hx.
  apply seen_small; [ apply AF; assumption | ]. intros f If.
  apply (cost_for_right N d (final_cost s)); auto; [ rewrite LN in Hf; rewrite <- Hf; lra | ].
  apply (blocks_small _ _ _ _ _ _ _ Ho Es Ev (c, x)); [ apply in_mpnp_views; rewrite Ln; auto | ].
  unfold mpnp_error. cbn [fst snd]. rewrite Ei. exact If.
Qed.

(** ** Multi-static-camera calibration *)
Lemma near_static_mono d d' p p0 : d <= d' -> near_static d p p0 -> near_static d' p p0.
Proof.
  intros L (A & B & C). split; [ exact A | split; [ | exact (near_pictures_mono _ _ _ _ L C) ] ].
  apply (Forall2_mono (Forall2 (near_pose d))); [ intros a b; apply near_poses_mono, L | exact B ].
Qed.
(** A hand-eye problem for one camera within a rig *)
Lemma rig_tends {I} (F : (I -> Prop) -> Prop) (HF : is_filter F) (X Z : I -> iso) X0 Z0 (W S : nat -> I -> iso) (W0 : nat -> iso) chosen :
  F (fun x => rigid (X x)) -> F (fun x => rigid (Z x)) -> rigid X0 -> rigid Z0 ->
  (forall i, In i chosen -> F (fun x => rigid (W i x)) /\ rigid (W0 i) /\ itends F (W i) (W0 i) /\
     F (fun x => S i x = iso_mul (iso_inv (X x)) (iso_mul (W i x) (Z x))) /\ itends F (S i) (iso_mul (iso_inv X0) (iso_mul (W0 i) Z0))) ->
  two_axes (motions_of (map W0 chosen)) -> itends F X X0 /\ itends F Z Z0.
Proof.
  intros RX RZ RX0 RZ0 D (MA & MB & u & v & IA & IB & TU & TV & NP).
  apply in_motions_of in IA as (Wi & Wj & Ii & Ij & ->). apply in_motions_of in IB as (Wk & Wl & Ik & Il & ->).
  set (J := {i : nat | In i chosen}).
  assert (PICK : forall T, In T (map W0 chosen) -> exists j : J, W0 (proj1_sig j) = T).
  { intros T IT. apply in_map_iff in IT as (i & <- & Hi). exists (exist _ i Hi). reflexivity. }
  destruct (PICK _ Ii) as [i <-]. destruct (PICK _ Ij) as [j <-]. destruct (PICK _ Ik) as [k <-]. destruct (PICK _ Il) as [l <-].
  apply (hand_eye_tends F HF (J := J) X Z X0 Z0 (fun j => W (proj1_sig j)) (fun j => S (proj1_sig j)) (fun j => W0 (proj1_sig j)) i j k l u v); auto;
    intros [m Hm]; cbn [proj1_sig]; apply (D m Hm).
Qed.
Lemma static_near p0 C0 Z0 :
  let n := List.length (sp_wrist_poses p0) in
  let k c := nth c (sp_intr p0) intr0 in
  let wrist p c i := nth i (nth c (sp_wrist_poses p) []) iso_id in
  let images c := List.length (nth c (sp_wrist_poses p0) []) in
  let image p c i := nth i (nth c (sp_image_observations p) []) [] in
  let seen p C Z c i := iso_mul (iso_inv (C c)) (iso_mul (wrist p c i) Z) in
  (forall c W, In W (nth c (sp_wrist_poses p0) []) -> rigid W) ->
  (forall c, (c < n)%nat -> rigid (C0 c)) -> rigid Z0 ->
  (forall c i, (c < n)%nat -> (i < images c)%nat -> perfect_image (k c) (seen p0 C0 Z0 c i) (image p0 c i)) ->
  (exists c chosen, (c < n)%nat /\
     (forall i, In i chosen -> (i < images c)%nat /\ usable (k c) (seen p0 C0 Z0 c i) (image p0 c i)) /\
     two_axes (motions_of (map (wrist p0 c) chosen))) ->
  (forall c, (c < n)%nat -> exists i, (i < images c)%nat /\ usable (k c) (seen p0 C0 Z0 c i) (image p0 c i)) ->
  forall e, 0 < e -> exists d, 0 < d /\ forall u solve cov p r, honest_blocks solve -> optimizeStatic u solve cov p = Ok r ->
    static_sizes p -> plain_wrists p -> near_static d p p0 ->
    (forall T, In T (sr_base_to_camera r) -> rigid T) -> rigid (sr_wrist_to_target r) ->
    let found c := nth c (sr_base_to_camera r) iso_id in
    (forall c i, (c < n)%nat -> (i < images c)%nat -> all_in_front (seen p found (sr_wrist_to_target r) c i) (image p c i)) ->
    sr_final_cost_per_obs r <= d ->
    (forall c, (c < n)%nat -> near_pose e (found c) (C0 c)) /\ near_pose e (sr_wrist_to_target r) Z0.
Proof.
  intros n k wrist images image seen RW0 RC0 RZ0 PI (c0 & chosen & Hc0 & Us0 & TA) Us e He.
  set (H := fun d (x : static_problem * (nat -> iso) * iso) => let p := fst (fst x) in let C := snd (fst x) in let Z := snd x in
    near_static d p p0 /\ rigid Z /\ (forall c, (c < n)%nat -> rigid (C c)) /\
    (forall c i, (c < n)%nat -> (i < images c)%nat -> rigid (wrist p c i)) /\
    (forall c i, (c < n)%nat -> (i < images c)%nat -> fits2 (k c) d (seen p C Z c i) (image p c i))).
  assert (A : antitone H).
  { intros d d' x L (H1 & H2 & H3 & H4 & H5). split; [ exact (near_static_mono _ _ _ _ L H1) | split; [ exact H2 | split; [ exact H3 | split; [ exact H4 | ] ] ] ].
    intros c i Hc Hi. exact (fits2_mono _ _ _ _ _ L (H5 c i Hc Hi)). }
  pose proof (closer_filter H A) as HF. set (F := closer H) in *.
  assert (RZ : F (fun x => rigid (snd x))) by (apply closer_always; intros d x Hx; exact (proj1 (proj2 Hx))).
  assert (RC : forall c, (c < n)%nat -> F (fun x => rigid (snd (fst x) c))) by (intros c Hc; apply closer_always; intros d x (_ & _ & R & _); apply R, Hc).
  assert (RW : forall c i, (c < n)%nat -> (i < images c)%nat -> F (fun x => rigid (wrist (fst (fst x)) c i))).
  { intros c i Hc Hi. apply closer_always. intros d x (_ & _ & _ & R & _). apply R; assumption. }
  assert (RW0' : forall c i, (i < images c)%nat -> rigid (wrist p0 c i)) by (intros c i Hi; apply (RW0 c), nth_In, Hi).
  assert (TW : forall c i, (c < n)%nat -> (i < images c)%nat -> itends F (fun x => wrist (fst (fst x)) c i) (wrist p0 c i)).
  { intros c i Hc Hi. apply (near_tends F HF). intros d Hd. exists d. split; [ exact Hd | ]. intros x ((_ & N & _) & _).
    unfold wrist. apply (Forall2_at (near_pose d)); [ apply (Forall2_at (Forall2 (near_pose d))); assumption | exact Hi ]. }
  assert (TS : forall c i, (c < n)%nat -> (i < images c)%nat -> usable (k c) (seen p0 C0 Z0 c i) (image p0 c i) ->
    itends F (fun x => seen (fst (fst x)) (snd (fst x)) (snd x) c i) (seen p0 C0 Z0 c i)).
  { intros c i Hc Hi U. apply (usable_tends F (k c) _ _ (fun x => image (fst (fst x)) c i) (image p0 c i)); auto.
    - apply rigid_mul; [ apply rigid_inv, RC0, Hc | apply rigid_mul; [ apply RW0', Hi | exact RZ0 ] ].
    - apply (f_imp F HF _ _ (f_and F HF _ _ (RC c Hc) (f_and F HF _ _ (RW c i Hc Hi) RZ))). intros x (R1 & R2 & R3).
      apply rigid_mul; [ apply rigid_inv, R1 | apply rigid_mul; assumption ].
    - intros d Hd. exists d. split; [ exact Hd | ]. intros x ((_ & _ & N) & _). apply picture_nth, N.
    - intros d Hd. exists d. split; [ exact Hd | ]. intros x (_ & _ & _ & _ & Q). apply Q; assumption. }
  destruct (rig_tends F HF (fun x => snd (fst x) c0) (fun x => snd x) (C0 c0) Z0 (fun i x => wrist (fst (fst x)) c0 i)
    (fun i x => seen (fst (fst x)) (snd (fst x)) (snd x) c0 i) (wrist p0 c0) chosen) as [_ TZ]; auto.
  { intros i Hi. destruct (Us0 i Hi) as [Hi' U]. split; [ apply RW; assumption | split; [ apply RW0', Hi' | split; [ apply TW; assumption | split ] ] ].
    - apply (f_all F HF). reflexivity.
    - apply (TS c0 i Hc0 Hi' U). }
  assert (TC : forall c, (c < n)%nat -> itends F (fun x => snd (fst x) c) (C0 c)).
  { intros c Hc. destruct (Us c Hc) as (i & Hi & U).
    pose proof (i_mul F HF _ _ _ _ (i_mul F HF _ _ _ _ (TW c i Hc Hi) TZ) (i_inv F HF _ _ (TS c i Hc Hi U))) as T. cbv beta in T.
    assert (X : forall C W Z, rigid C -> rigid W -> rigid Z -> iso_mul (iso_mul W Z) (iso_inv (iso_mul (iso_inv C) (iso_mul W Z))) = C).
    { intros C W Z R1 R2 R3. rewrite iso_inv_mul, iso_inv_inv by (first [ exact R1 | apply rigid_inv, R1 ]).
      rewrite <- iso_mul_assoc, iso_inv_r, iso_mul_id_l by (apply rigid_mul; assumption). reflexivity. }
    unfold seen in T at 2. rewrite X in T by auto. refine (i_ext F HF _ _ _ _ T).
    apply (f_imp F HF _ _ (f_and F HF _ _ (RC c Hc) (f_and F HF _ _ (RW c i Hc Hi) RZ))). intros x (R1 & R2 & R3). apply X; assumption. }
  destruct (f_and F HF _ _ (f_below F HF n (fun c x => near_pose e (snd (fst x) c) (C0 c)) (fun c Hc => tends_near F HF _ _ _ (TC c Hc) He)) (tends_near F HF _ _ _ TZ He)) as (d & Hd & B).
  set (N := (2 * List.length (views (sp_image_observations p0) (camera_major images n)))%nat). destruct (both_small N d Hd) as (Hm & M1 & M2).
  exists (Rmin d (cost_for N d)). split; [ exact Hm | ]. intros u solve cov p r Ho E Sz PW NP RC1 RZ1 found AF Hf'.
  pose proof NP as (Ei & NW & NI). pose proof Sz as (_ & Sn & _).
  destruct (static_right p Sz PW) as (blocks & Ev & Res).
  destruct (Res u solve cov r E) as (m & s & Es & _ & Hz & Hl & Hcam & _ & Hf).
  assert (Ln : List.length (sp_base_to_camera_guess p) = n) by (rewrite <- Sn; exact (Forall2_size _ _ _ NW)).
  rewrite Ln in *.
  assert (Li : forall c, List.length (nth c (sp_wrist_poses p) []) = images c).
  { intros c. apply (Forall2_size (near_pose (Rmin d (cost_for N d)))). apply (Forall2_every (Forall2 (near_pose (Rmin d (cost_for N d))))); [ exact NW | constructor ]. }
  assert (EV : static_views p = views (sp_image_observations p) (camera_major images n)).
  { unfold static_views. rewrite Ln. f_equal. apply camera_major_same, Li. }
  assert (LN : (2 * List.length (static_views p))%nat = N) by (rewrite EV; unfold N; f_equal; exact (views_size _ _ _ _ NI)).
  assert (FD : forall c, (c < n)%nat -> found c = iso_inv (poseCalToEigen (read_pose m c)) /\ rigid (found c)).
  { intros c Hc. unfold found. rewrite <- Hl in Hc. split; [ | apply RC1, nth_In, Hc ]. apply Hcam. apply nth_error_nth'. exact Hc. }
  assert (RM : forall c, (c < n)%nat -> rigid (poseCalToEigen (read_pose m c))) by (intros c Hc; apply rigid_of_inv; destruct (FD c Hc) as [<- R]; exact R).
  specialize (Ev m RM).
  assert (Ev' : map (fun b => rb_eval b m) blocks = map (static_error p found (sr_wrist_to_target r)) (static_views p)).
  { rewrite Ev. apply map_ext_in. intros [[c i] x] Hv. apply in_static_views in Hv as (Hc & _). rewrite Ln in Hc. unfold static_error.
    rewrite Hz. destruct (FD c Hc) as [-> _]. reflexivity. }
  assert (Nn : N <> 0%nat).
  { destruct (Us c0 Hc0) as (i & Hi & U). destruct (usable_nonempty _ _ _ U) as [x Hx].
    assert (V : In (c0, i, x) (views (sp_image_observations p0) (camera_major images n))) by (apply in_views; split; [ apply in_camera_major; auto | exact Hx ]).
    assert (L : List.length (views (sp_image_observations p0) (camera_major images n)) <> 0%nat) by exact (nonempty_in _ _ V). unfold N; lia. }
  apply (B (p, found, sr_wrist_to_target r)). split; [ exact (near_static_mono _ _ _ _ M1 NP) | ]. cbn [fst snd]. split; [ exact RZ1 | ].
  split; [ intros c Hc; apply FD, Hc | ]. split; [ intros c i Hc Hi; apply plain_rigid, (PW c), nth_In; rewrite Li; exact Hi | ].
  intros c i Hc Hi. split; [ apply AF; assumption | ]. intros x Hx.
  apply seen_small; [ apply AF; assumption | ]. intros f If.
  apply (cost_for_right N d (final_cost s)); auto; [ rewrite LN in Hf; rewrite <- Hf; lra | ].
  apply (blocks_small _ _ _ _ _ _ _ Ho Es Ev' (c, i, x)); [ apply in_static_views; rewrite Ln, Li; auto | ].
  unfold static_error. rewrite Ei. exact If.
Qed.

(** ** Wrist-only calibration *)
Lemma near_wrist_mono d d' p p0 : d <= d' -> near_wrist d p p0 -> near_wrist d' p p0.
Proof.
  intros L (A & B & C & D). split; [ exact A | split; [ exact (near_poses_mono _ _ _ _ L B) | split; [ exact (near_poses_mono _ _ _ _ L C) | exact (near_pictures_mono _ _ _ _ L D) ] ] ].
Qed.
Lemma wrist_near p0 K0 Z0 :
  let n := List.length (wp_base_to_camera_guess p0) in
  let images := List.length (wp_wrist_poses p0) in
  let k c := nth c (wp_intr p0) intr0 in
  let wrist p i := nth i (wp_wrist_poses p) iso_id in
  let image p c i := nth i (nth c (wp_image_observations p) []) [] in
  let truth c := iso_mul K0 (nth c (wp_base_to_camera_guess p0) iso_id) in
  let seen p C Z c i := iso_mul (iso_inv (C c)) (iso_mul (wrist p i) Z) in
  (forall T, In T (wp_wrist_poses p0) -> rigid T) -> (forall T, In T (wp_base_to_camera_guess p0) -> rigid T) -> rigid K0 -> rigid Z0 ->
  (forall c i, (c < n)%nat -> (i < images)%nat -> perfect_image (k c) (seen p0 truth Z0 c i) (image p0 c i)) ->
  (exists c chosen, (c < n)%nat /\
     (forall i, In i chosen -> (i < images)%nat /\ usable (k c) (seen p0 truth Z0 c i) (image p0 c i)) /\
     two_axes (motions_of (map (wrist p0) chosen))) ->
  forall e, 0 < e -> exists d, 0 < d /\ forall solve p r, honest_blocks solve -> optimizeWrist solve p = Ok r -> wrist_sizes p ->
    (forall T, In T (wp_wrist_poses p) -> plain_pose T) -> (forall T, In T (wp_base_to_camera_guess p) -> plain_pose T) -> near_wrist d p p0 ->
    (forall T, In T (wr_base_to_camera r) -> rigid T) -> rigid (wr_wrist_to_target r) ->
    let found c := nth c (wr_base_to_camera r) iso_id in
    (forall c i, (c < n)%nat -> (i < images)%nat -> all_in_front (seen p found (wr_wrist_to_target r) c i) (image p c i)) ->
    wr_final_cost_per_obs r <= d ->
    (forall c, (c < n)%nat -> near_pose e (found c) (truth c)) /\ near_pose e (wr_wrist_to_target r) Z0.
Proof.
  intros n images k wrist image truth seen RW0 RG0 RK0 RZ0 PI (c0 & chosen & Hc0 & Us0 & TA) e He.
  set (guess := fun p c => nth c (wp_base_to_camera_guess p) iso_id).
  (* x: problem, common motion found, target found *)
  set (cam := fun (x : wrist_problem * iso * iso) c => iso_mul (snd (fst x)) (guess (fst (fst x)) c)).
  set (H := fun d (x : wrist_problem * iso * iso) => let p := fst (fst x) in let Z := snd x in
    near_wrist d p p0 /\ rigid Z /\ rigid (snd (fst x)) /\
    (forall c, (c < n)%nat -> rigid (guess p c)) /\ (forall i, (i < images)%nat -> rigid (wrist p i)) /\
    (forall i, (i < images)%nat -> fits2 (k c0) d (seen p (cam x) Z c0 i) (image p c0 i))).
  assert (A : antitone H).
  { intros d d' x L (H1 & H2 & H3 & H4 & H5 & H6). split; [ exact (near_wrist_mono _ _ _ _ L H1) | split; [ exact H2 | split; [ exact H3 | split; [ exact H4 | split; [ exact H5 | ] ] ] ] ].
    intros i Hi. exact (fits2_mono _ _ _ _ _ L (H6 i Hi)). }
  pose proof (closer_filter H A) as HF. set (F := closer H) in *.
  assert (RZ : F (fun x => rigid (snd x))) by (apply closer_always; intros d x Hx; exact (proj1 (proj2 Hx))).
  assert (RK : F (fun x => rigid (snd (fst x)))) by (apply closer_always; intros d x Hx; exact (proj1 (proj2 (proj2 Hx)))).
  assert (RG : forall c, (c < n)%nat -> F (fun x => rigid (guess (fst (fst x)) c))) by (intros c Hc; apply closer_always; intros d x (_ & _ & _ & R & _); apply R, Hc).
  assert (RW : forall i, (i < images)%nat -> F (fun x => rigid (wrist (fst (fst x)) i))).
  { intros i Hi. apply closer_always. intros d x (_ & _ & _ & _ & R & _). apply R; assumption. }
  assert (RC : F (fun x => rigid (cam x c0))).
  { apply (f_imp F HF _ _ (f_and F HF _ _ RK (RG c0 Hc0))). intros x [R1 R2]. apply rigid_mul; assumption. }
  assert (RW0' : forall i, (i < images)%nat -> rigid (wrist p0 i)) by (intros i Hi; apply RW0, nth_In, Hi).
  assert (RG0' : forall c, (c < n)%nat -> rigid (guess p0 c)) by (intros c Hc; apply RG0, nth_In, Hc).
  assert (TW : forall i, (i < images)%nat -> itends F (fun x => wrist (fst (fst x)) i) (wrist p0 i)).
  { intros i Hi. apply (near_tends F HF). intros d Hd. exists d. split; [ exact Hd | ]. intros x ((_ & _ & N & _) & _). apply (Forall2_at (near_pose d)); assumption. }
  assert (TG : forall c, (c < n)%nat -> itends F (fun x => guess (fst (fst x)) c) (guess p0 c)).
  { intros c Hc. apply (near_tends F HF). intros d Hd. exists d. split; [ exact Hd | ]. intros x ((_ & N & _) & _). apply (Forall2_at (near_pose d)); assumption. }
  assert (TS : forall i, (i < images)%nat -> usable (k c0) (seen p0 truth Z0 c0 i) (image p0 c0 i) ->
    itends F (fun x => seen (fst (fst x)) (cam x) (snd x) c0 i) (seen p0 truth Z0 c0 i)).
  { intros i Hi U. apply (usable_tends F (k c0) _ _ (fun x => image (fst (fst x)) c0 i) (image p0 c0 i)); auto.
    - apply rigid_mul; [ apply rigid_inv, rigid_mul; [ exact RK0 | apply RG0', Hc0 ] | apply rigid_mul; [ apply RW0', Hi | exact RZ0 ] ].
    - apply (f_imp F HF _ _ (f_and F HF _ _ RC (f_and F HF _ _ (RW i Hi) RZ))). intros x (R1 & R2 & R3).
      apply rigid_mul; [ apply rigid_inv, R1 | apply rigid_mul; assumption ].
    - intros d Hd. exists d. split; [ exact Hd | ]. intros x ((_ & _ & _ & N) & _). apply picture_nth, N.
    - intros d Hd. exists d. split; [ exact Hd | ]. intros x (_ & _ & _ & _ & _ & Q). apply Q; assumption. }
  destruct (rig_tends F HF (fun x => cam x c0) (fun x => snd x) (truth c0) Z0 (fun i x => wrist (fst (fst x)) i)
    (fun i x => seen (fst (fst x)) (cam x) (snd x) c0 i) (wrist p0) chosen) as [TX TZ]; auto.
  { apply rigid_mul; [ exact RK0 | apply RG0', Hc0 ]. }
  { intros i Hi. destruct (Us0 i Hi) as [Hi' U]. split; [ apply RW; assumption | split; [ apply RW0', Hi' | split; [ apply TW; assumption | split ] ] ].
    - apply (f_all F HF). reflexivity.
    - apply (TS i Hi' U). }
  assert (TK : itends F (fun x => snd (fst x)) K0).
  { pose proof (i_mul F HF _ _ _ _ TX (i_inv F HF _ _ (TG c0 Hc0))) as T. cbv beta in T. unfold truth at 1 in T. fold (guess p0 c0) in T.
    rewrite iso_mul_assoc, iso_inv_r, iso_mul_id_r in T by (apply RG0', Hc0). refine (i_ext F HF _ _ _ _ T).
    apply (f_imp F HF _ _ (RG c0 Hc0)). intros x R1. unfold cam. rewrite iso_mul_assoc, iso_inv_r, iso_mul_id_r by exact R1. reflexivity. }
  assert (TC : forall c, (c < n)%nat -> itends F (fun x => cam x c) (truth c)).
  { intros c Hc. exact (i_mul F HF _ _ _ _ TK (TG c Hc)). }
  destruct (f_and F HF _ _ (f_below F HF n (fun c x => near_pose e (cam x c) (truth c)) (fun c Hc => tends_near F HF _ _ _ (TC c Hc) He)) (tends_near F HF _ _ _ TZ He)) as (d & Hd & B).
  set (N := (2 * List.length (wrist_views p0))%nat). destruct (both_small N d Hd) as (Hm & M1 & M2).
  exists (Rmin d (cost_for N d)). split; [ exact Hm | ]. intros solve p r Ho E Sz PW PC NP RC1 RZ1 found AF Hf'.
  pose proof NP as (Ei & NG & NW & NI).
  destruct (wrist_right p Sz PW PC) as (blocks & Ev & Res).
  destruct (Res solve) as (m & s & r' & Es & Er & _ & Hz & Hcam & _ & Hf). rewrite Er in E. injection E as ->.
  set (K := poseCalToEigen (read_pose m key_correction)) in *.
  assert (Ln : List.length (wp_base_to_camera_guess p) = n) by exact (Forall2_size _ _ _ NG).
  assert (Li : List.length (wp_wrist_poses p) = images) by exact (Forall2_size _ _ _ NW).
  assert (FD : forall c, (c < n)%nat -> found c = iso_mul (iso_inv K) (guess p c)).
  { intros c Hc. unfold found. rewrite Hcam.
    rewrite (nth_indep _ iso_id (iso_mul (iso_inv K) iso_id)) by (rewrite map_length, Ln; exact Hc). apply map_nth. }
  assert (RG1 : forall c, (c < n)%nat -> rigid (guess p c)) by (intros c Hc; apply plain_rigid, PC, nth_In; rewrite Ln; exact Hc).
  assert (RK1 : rigid K).
  { assert (R : rigid (found c0)) by (apply RC1, nth_In; rewrite Hcam, map_length, Ln; exact Hc0). rewrite FD in R by exact Hc0.
    apply rigid_of_inv. pose proof (rigid_mul _ _ R (rigid_inv _ (RG1 c0 Hc0))) as R'. rewrite iso_mul_assoc, iso_inv_r, iso_mul_id_r in R' by auto. exact R'. }
  assert (LN : (2 * List.length (wrist_views p))%nat = N).
  { unfold N, wrist_views. rewrite Ln, Li. f_equal. exact (views_size _ _ _ _ NI). }
  specialize (Ev m RK1). fold K in Ev. rewrite <- Hz in Ev.
  assert (Nn : N <> 0%nat).
  { destruct (two_axes_nonempty _ TA) as [A' HA]. apply in_motions_of in HA as (W & _ & IW & _).
    apply in_map_iff in IW as (i & _ & Hi). destruct (Us0 i Hi) as [Hi' U]. destruct (usable_nonempty _ _ _ U) as [x Hx].
    assert (L : List.length (wrist_views p0) <> 0%nat) by exact (nonempty_in _ _ (proj2 (in_wrist_views p0 c0 i x) (conj Hc0 (conj Hi' Hx)))). unfold N; lia. }
  assert (Q : (forall c, (c < n)%nat -> near_pose e (cam (p, iso_inv K, wr_wrist_to_target r) c) (truth c)) /\ near_pose e (wr_wrist_to_target r) Z0).
  { apply (B (p, iso_inv K, wr_wrist_to_target r)). split; [ exact (near_wrist_mono _ _ _ _ M1 NP) | ]. cbn [fst snd]. split; [ exact RZ1 | ].
    split; [ apply rigid_inv, RK1 | ]. split; [ exact RG1 | ]. split; [ intros i Hi; apply plain_rigid, PW, nth_In; rewrite Li; exact Hi | ].
    intros i Hi. assert (ES : seen p (cam (p, iso_inv K, wr_wrist_to_target r)) (wr_wrist_to_target r) c0 i = seen p found (wr_wrist_to_target r) c0 i)
      by (unfold seen, cam; cbn [fst snd]; rewrite <- FD by exact Hc0; reflexivity).
    rewrite ES. split; [ apply AF; assumption | ]. intros x Hx.
    apply seen_small; [ apply AF; assumption | ]. intros f If.
    apply (cost_for_right N d (final_cost s)); auto; [ rewrite LN in Hf; rewrite <- Hf; lra | ].
    apply (blocks_small _ _ _ _ _ _ _ Ho Es Ev (c0, i, x)); [ apply in_wrist_views; rewrite Ln, Li; auto | ].
    unfold wrist_error. rewrite Ei. fold (guess p c0). rewrite <- FD by exact Hc0. exact If. }
  destruct Q as [Q1 Q2]. split; [ | exact Q2 ]. intros c Hc. rewrite FD by exact Hc. exact (Q1 c Hc).
Qed.

(** ** Cameras only, with a fixed first camera *)
Lemma near_only_mono d d' p p0 : d <= d' -> near_only d p p0 -> near_only d' p p0.
Proof. intros L (A & B & C). split; [ exact A | split; [ exact (near_pictures_mono _ _ _ _ L B) | exact C ] ]. Qed.
Lemma f_when {I} (F : (I -> Prop) -> Prop) (HF : is_filter F) (C : Prop) (P : I -> Prop) : (C -> F P) -> F (fun x => C -> P x).
Proof.
  intros H. destruct (classic C) as [Y|N]; [ apply (f_imp F HF _ _ (H Y)); auto | apply (f_all F HF); intros x Y; contradiction ].
Qed.
Lemma only_residuals solve p r : honest_blocks solve -> leaves_others solve -> optimizeOnly solve p = Ok r -> only_sizes p ->
  (op_fix_first_camera p = true -> forall T, nth_error (op_base_to_camera_guess p) 0 = Some T -> plain_pose T) ->
  (forall T, In T (or_base_to_camera r) -> rigid T) ->
  let camera c := nth c (or_base_to_camera r) iso_id in
  let target i := nth i (or_base_to_target r) iso_id in
  List.length (or_base_to_camera r) = List.length (op_base_to_camera_guess p) /\
  List.length (or_base_to_target r) = List.length (op_base_to_target_guess p) /\
  exists cost, or_final_cost_per_obs r = cost / INR (2 * List.length (only_views p)) /\
    forall v, In v (only_views p) -> forall e, In e (only_error p camera target v) -> e * e <= 2 * cost.
Proof.
  intros Ho Lo E Sz PF RC camera target. destruct (only_right p Sz PF) as (blocks & Ev & Res).
  destruct (Res solve) as (m & s & r' & Es & Er & _ & Ht & Hc & _ & Hf). rewrite Er in E. injection E as Err. rewrite Err in *.
  assert (Lc : List.length (or_base_to_camera r) = List.length (op_base_to_camera_guess p)) by (rewrite Hc, map_length, seq_length; reflexivity).
  assert (Lt : List.length (or_base_to_target r) = List.length (op_base_to_target_guess p)) by (rewrite Ht, map_length, seq_length; reflexivity).
  split; [ exact Lc | split; [ exact Lt | exists (final_cost s); split; [ exact Hf | ] ] ].
  assert (FC : forall c, (c < List.length (op_base_to_camera_guess p))%nat -> camera c = iso_inv (poseCalToEigen (read_pose m c))).
  { intros c Hc'. unfold camera. rewrite Hc. apply (nth_map_seq' (fun c => iso_inv (poseCalToEigen (read_pose m c)))), Hc'. }
  assert (FT : forall i, (i < List.length (op_base_to_target_guess p))%nat -> target i = poseCalToEigen (read_pose m (List.length (op_base_to_camera_guess p) + i)%nat)).
  { intros i Hi. unfold target. rewrite Ht. apply (nth_map_seq' (fun i => poseCalToEigen (read_pose m (List.length (op_base_to_camera_guess p) + i)%nat))), Hi. }
  assert (RM : forall c, (c < List.length (op_base_to_camera_guess p))%nat -> rigid (poseCalToEigen (read_pose m c))).
  { intros c Hc'. apply rigid_of_inv. rewrite <- FC by exact Hc'. apply RC, nth_In. rewrite Lc. exact Hc'. }
  specialize (Ev m RM).
  apply (blocks_small _ _ _ _ _ _ _ Ho Es). rewrite Ev. apply map_ext_in. intros [[c i] x] Hv.
  assert (GN : op_base_to_target_guess p <> []) by (intros Q; rewrite (no_views p Q) in Hv; exact Hv).
  apply in_only_views in Hv as (Hc' & Hi & _). unfold only_error.
  rewrite <- FT by exact Hi. f_equal. f_equal. f_equal.
  destruct (op_fix_first_camera p) eqn:Ff; cbn [andb]; [ | symmetry; apply FC, Hc' ].
  destruct (Nat.eqb_spec c 0) as [->|_]; [ | symmetry; apply FC, Hc' ].
  pose proof (nth_error_nth' _ iso_id Hc') as G.
  assert (PG : plain_pose (nth 0 (op_base_to_camera_guess p) iso_id)) by (apply (PF eq_refl _ G)).
  pose proof (only_first_fixed p solve r _ Sz Lo Ff GN G PG Er) as Q.
  unfold camera. symmetry. apply nth_error_nth. exact Q.
Qed.
Lemma only_near p0 C0 B0 :
  let n := List.length (op_image_observations p0) in
  let images := List.length (op_base_to_target_guess p0) in
  let k c := nth c (op_intr p0) intr0 in
  let image p c i := nth i (nth c (op_image_observations p) []) [] in
  let seen (C B : nat -> iso) c i := iso_mul (iso_inv (C c)) (B i) in
  let good c i := (c < n)%nat /\ (i < images)%nat /\ usable (k c) (seen C0 B0 c i) (image p0 c i) in
  (0 < images)%nat -> plain_pose (C0 0%nat) -> (forall c, (c < n)%nat -> rigid (C0 c)) -> (forall i, (i < images)%nat -> rigid (B0 i)) ->
  (forall c i, (c < n)%nat -> (i < images)%nat -> perfect_image (k c) (seen C0 B0 c i) (image p0 c i)) ->
  forall e, 0 < e -> exists d, 0 < d /\ forall solve p r, honest_blocks solve -> leaves_others solve -> optimizeOnly solve p = Ok r -> only_sizes p ->
    op_fix_first_camera p = true -> nth_error (op_base_to_camera_guess p) 0 = Some (C0 0%nat) -> near_only d p p0 ->
    (forall T, In T (or_base_to_camera r) -> rigid T) -> (forall T, In T (or_base_to_target r) -> rigid T) ->
    let camera c := nth c (or_base_to_camera r) iso_id in
    let target i := nth i (or_base_to_target r) iso_id in
    (forall c i, (c < n)%nat -> (i < images)%nat -> all_in_front (seen camera target c i) (image p c i)) ->
    or_final_cost_per_obs r <= d ->
    (forall c, linked_camera good 0 c -> (c < n)%nat -> near_pose e (camera c) (C0 c)) /\
    (forall i, linked_image good 0 i -> (i < images)%nat -> near_pose e (target i) (B0 i)).
Proof.
  intros n images k image seen good Im P0 RC0 RB0 PI e He.
  set (H := fun d (x : only_problem * (nat -> iso) * (nat -> iso)) => let p := fst (fst x) in let C := snd (fst x) in let B := snd x in
    near_only d p p0 /\ (0 < images -> C 0 = C0 0)%nat /\ (forall c, (c < n)%nat -> rigid (C c)) /\ (forall i, (i < images)%nat -> rigid (B i)) /\
    (forall c i, (c < n)%nat -> (i < images)%nat -> fits2 (k c) d (seen C B c i) (image p c i))).
  assert (A : antitone H).
  { intros d d' x L (H1 & H2 & H3 & H4 & H5). split; [ exact (near_only_mono _ _ _ _ L H1) | split; [ exact H2 | split; [ exact H3 | split; [ exact H4 | ] ] ] ].
    intros c i Hc Hi. exact (fits2_mono _ _ _ _ _ L (H5 c i Hc Hi)). }
  pose proof (closer_filter H A) as HF. set (F := closer H) in *.
  assert (RC : forall c, (c < n)%nat -> F (fun x => rigid (snd (fst x) c))) by (intros c Hc; apply closer_always; intros d x (_ & _ & R & _); apply R, Hc).
  assert (RB : forall i, (i < images)%nat -> F (fun x => rigid (snd x i))) by (intros i Hi; apply closer_always; intros d x (_ & _ & _ & R & _); apply R, Hi).
  assert (TS : forall c i, good c i -> itends F (fun x => seen (snd (fst x)) (snd x) c i) (seen C0 B0 c i)).
  { intros c i (Hc & Hi & U). apply (usable_tends F (k c) _ _ (fun x => image (fst (fst x)) c i) (image p0 c i)); auto.
    - apply rigid_mul; [ apply rigid_inv, RC0, Hc | apply RB0, Hi ].
    - apply (f_imp F HF _ _ (f_and F HF _ _ (RC c Hc) (RB i Hi))). intros x (R1 & R2). apply rigid_mul; [ apply rigid_inv, R1 | assumption ].
    - intros d Hd. exists d. split; [ exact Hd | ]. intros x ((_ & N & _) & _). apply picture_nth, N.
    - intros d Hd. exists d. split; [ exact Hd | ]. intros x (_ & _ & _ & _ & Q). apply Q; assumption. }
  assert (Both : (forall c, linked_camera good 0 c -> c = 0%nat \/ itends F (fun x => snd (fst x) c) (C0 c)) /\
                 (forall i, linked_image good 0 i -> itends F (fun x => snd x i) (B0 i))).
  { apply linked_both.
    - left. reflexivity.
    - intros c i _ IH G. pose proof G as (Hc & Hi & _). right.
      pose proof (i_mul F HF _ _ _ _ IH (i_inv F HF _ _ (TS c i G))) as T. cbv beta in T.
      assert (X : forall C B, rigid C -> rigid B -> iso_mul B (iso_inv (iso_mul (iso_inv C) B)) = C).
      { intros C B R1 R2. rewrite iso_inv_mul, iso_inv_inv by (first [ exact R1 | apply rigid_inv, R1 ]).
        rewrite <- iso_mul_assoc, iso_inv_r, iso_mul_id_l by assumption. reflexivity. }
      unfold seen in T at 2. rewrite X in T by auto. refine (i_ext F HF _ _ _ _ T).
      apply (f_imp F HF _ _ (f_and F HF _ _ (RC c Hc) (RB i Hi))). intros x (R1 & R2). apply X; assumption.
    - intros c i _ IH G. pose proof G as (Hc & Hi & _).
      assert (TC : itends F (fun x => snd (fst x) c) (C0 c)).
      { destruct IH as [->|IH]; [ | exact IH ]. refine (i_ext F HF _ _ _ _ (i_const F HF (C0 0%nat))).
        apply closer_always. intros d x (_ & Q & _). symmetry. apply Q. lia. }
      pose proof (i_mul F HF _ _ _ _ TC (TS c i G)) as T. cbv beta in T.
      unfold seen in T at 2. rewrite <- iso_mul_assoc, iso_inv_r, iso_mul_id_l in T by auto. refine (i_ext F HF _ _ _ _ T).
      apply (f_imp F HF _ _ (RC c Hc)). intros x R1. unfold seen. rewrite <- iso_mul_assoc, iso_inv_r, iso_mul_id_l by exact R1. reflexivity. }
  destruct Both as [BC BB].
  assert (QC : F (fun x => forall c, (c < n)%nat -> linked_camera good 0 c -> c <> 0%nat -> near_pose e (snd (fst x) c) (C0 c))).
  { apply (f_below F HF). intros c Hc. apply (f_when F HF). intros L. apply (f_when F HF). intros NZ.
    destruct (BC c L) as [Q|Q]; [ contradiction | exact (tends_near F HF _ _ _ Q He) ]. }
  assert (QB : F (fun x => forall i, (i < images)%nat -> linked_image good 0 i -> near_pose e (snd x i) (B0 i))).
  { apply (f_below F HF). intros i Hi. apply (f_when F HF). intros L. exact (tends_near F HF _ _ _ (BB i L) He). }
  destruct (f_and F HF _ _ QC QB) as (d & Hd & B).
  set (N := (2 * List.length (views (op_image_observations p0) (image_major images n)))%nat). destruct (both_small N d Hd) as (Hm & M1 & M2).
  exists (Rmin d (cost_for N d)). split; [ exact Hm | ]. intros solve p r Ho Lo E Sz Ff G NP RC1 RB1 camera target AF Hf'.
  pose proof NP as (Ei & NI & Li). pose proof Sz as (_ & Sn & _).
  assert (Ln : List.length (op_base_to_camera_guess p) = n) by (rewrite <- Sn; exact (Forall2_size _ _ _ NI)).
  assert (PF : op_fix_first_camera p = true -> forall T, nth_error (op_base_to_camera_guess p) 0 = Some T -> plain_pose T)
    by (intros _ T HT; rewrite G in HT; injection HT as <-; exact P0).
  destruct (only_residuals solve p r Ho Lo E Sz PF RC1) as (Lc & Lt & cost & Hf & Res).
  assert (EV : only_views p = views (op_image_observations p) (image_major images n)) by (unfold only_views; rewrite Ln, Li; reflexivity).
  assert (LN : (2 * List.length (only_views p))%nat = N) by (rewrite EV; unfold N; f_equal; exact (views_size _ _ _ _ NI)).
  assert (C00 : (0 < images)%nat -> camera 0%nat = C0 0%nat).
  { intros Pi. apply nth_error_nth. apply (only_first_fixed p solve r _ Sz Lo Ff); auto. intros Q. fold images in Li. rewrite Q in Li. cbn in Li. lia. }
  assert (Hx : H d (p, camera, target)).
  { split; [ exact (near_only_mono _ _ _ _ M1 NP) | ]. cbn [fst snd]. split; [ exact C00 | ].
    split; [ intros c Hc; apply RC1, nth_In; rewrite Lc, Ln; exact Hc | ]. split; [ intros i Hi; apply RB1, nth_In; rewrite Lt, Li; exact Hi | ].
    intros c i Hc Hi. split; [ apply AF; assumption | ]. intros x Hx.
    apply seen_small; [ apply AF; assumption | ]. intros f If.
    assert (V : In (c, i, x) (only_views p)) by (apply in_only_views; rewrite Ln, Li; auto).
    assert (Nn : N <> 0%nat) by (assert (L : List.length (only_views p) <> 0%nat) by exact (nonempty_in _ _ V); lia).
    apply (cost_for_right N d cost); auto; [ rewrite LN in Hf; rewrite <- Hf; lra | ].
    apply (Res _ V). unfold only_error. rewrite Ei. exact If. }
  destruct (B _ Hx) as [B1 B2]. cbn [fst snd] in B1, B2. split; [ | intros i L Hi; apply B2; assumption ].
  intros c L Hc. destruct (Nat.eq_dec c 0) as [->|NZ]; [ | apply B1; assumption ].
  rewrite (C00 Im). unfold near_pose, mat_close, point_close. rewrite !Rminus_eq_0, Rabs_R0. repeat split; lra.
Qed.
