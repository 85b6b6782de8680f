(** Proofs about the calibrations offered for the same data. *)
From Coq Require Import Reals Arith List Permutation Lra Lia.
From Verif.Base Require Import Geom Outcome.
From Verif.Model Require Import Pose Covariance Solver BlockSolver HandEye Pnp MultiCamera.
From Verif.Spec Require Import Frames PinHole PnpSpec UniqueSpec MultiSpec SameDataSpec ToolsAgreeSpec.
From Verif.Proofs Require Import GeomLemmas PoseProofs HandEyeProofs PnpProofs MultiCameraProofs UniqueProofs UniqueMulti SameDataProofs.
Import ListNotations.
Local Open Scope R_scope.

(** ** Sums *)
Lemma sum_le {A} (l : list A) f g : (forall a, In a l -> f a <= g a) -> sum_over l f <= sum_over l g.
Proof.
  induction l as [|a l IH]; intros H; cbn; [ lra | ].
  apply Rplus_le_compat; [ apply H; left; reflexivity | apply IH; intros; apply H; right; assumption ].
Qed.
Lemma sum_eq {A} (l : list A) f g : (forall a, In a l -> f a = g a) -> sum_over l f = sum_over l g.
Proof. intros H. apply Rle_antisym; apply sum_le; intros a Ia; rewrite (H a Ia); lra. Qed.
Lemma sum_cons {A} (a : A) l f : sum_over (a :: l) f = f a + sum_over l f.
Proof. reflexivity. Qed.
Lemma sum_nil {A} (f : A -> R) : sum_over [] f = 0.
Proof. reflexivity. Qed.
Lemma sum_app {A} (l l' : list A) f : sum_over (l ++ l') f = sum_over l f + sum_over l' f.
Proof. induction l as [|a l IH]; cbn [app]; rewrite ?sum_nil, ?sum_cons; [ lra | rewrite IH; lra ]. Qed.
Lemma sum_flat {A B} (l : list A) (g : A -> list B) f : sum_over (flat_map g l) f = sum_over l (fun a => sum_over (g a) f).
Proof. induction l as [|a l IH]; cbn [flat_map]; [ reflexivity | rewrite sum_app, IH; reflexivity ]. Qed.
Lemma sum_map {A B} (l : list A) (g : A -> B) f : sum_over (map g l) f = sum_over l (fun a => f (g a)).
Proof. induction l as [|a l IH]; cbn [map]; rewrite ?sum_cons; [ reflexivity | rewrite IH; reflexivity ]. Qed.
Lemma squares_sum {A} (f : A -> list R) l : half_squares (flat_map f l) = sum_over l (fun a => half_squares (f a)).
Proof. induction l as [|a l IH]; cbn; [ unfold half_squares; cbn; ring | rewrite half_squares_app, IH; reflexivity ]. Qed.
Lemma squares_flat {A B} (g : A -> list B) (f : B -> list R) l :
  half_squares (flat_map f (flat_map g l)) = sum_over l (fun a => half_squares (flat_map f (g a))).
Proof.
  induction l as [|a l IH]; cbn; [ unfold half_squares; cbn; ring | ]. rewrite flat_map_app, half_squares_app, IH. reflexivity.
Qed.

Lemma rig_by_picture k images order T : rig_error k (views images order) T =
  sum_over order (fun ci => pose_error (k (fst ci)) (images_of images (fst ci) (snd ci)) (T (fst ci) (snd ci))).
Proof.
  unfold rig_error, views. rewrite squares_flat. apply sum_eq. intros [c i] _. cbn [fst snd].
  rewrite flat_map_map. reflexivity.
Qed.
Lemma he_by_picture k os X Z : image_error k (sightings os) X Z =
  sum_over os (fun o => pose_error k (correspondence_set o) (target_in_camera X (to_camera_mount o) (to_target_mount o) Z)).
Proof.
  unfold image_error, sightings. rewrite squares_flat. apply sum_eq. intros o _. rewrite flat_map_map. reflexivity.
Qed.
Lemma rig_error_ext k vs T T' : (forall c i x, In (c, i, x) vs -> T c i = T' c i) -> rig_error k vs T = rig_error k vs T'.
Proof.
  intros H. unfold rig_error. f_equal. apply flat_map_same. intros [[c i] x] Hv. rewrite (H c i x Hv). reflexivity.
Qed.
Lemma rig_in_view_ext vs T T' : (forall c i x, In (c, i, x) vs -> T c i = T' c i) -> rig_in_view vs T -> rig_in_view vs T'.
Proof. intros H V c i x Hv. rewrite <- (H c i x Hv). apply (V c i x Hv). Qed.

(** ** What the tools report *)
Lemma honest_rig (solve : block_solver) blocks m0 m s (err : view -> list R) k vs T : honest_blocks solve ->
  solve blocks m0 = (m, s) -> map (fun b => rb_eval b m) blocks = map err vs ->
  (forall c i x, In (c, i, x) vs -> err (c, i, x) = seen_error (k c) (T c i) x) -> rig_in_view vs T ->
  final_cost s = rig_error k vs T.
Proof.
  intros H E M S V. specialize (H blocks m0). rewrite E in H. rewrite H.
  rewrite flat_map_concat_map, M, <- flat_map_concat_map. unfold rig_error. f_equal. apply flat_map_same.
  intros [[c i] x] Hv. rewrite (S c i x Hv). destruct (V c i x Hv) as [_ F]. unfold seen_error, pixel_error.
  rewrite arr_pinhole by lra. reflexivity.
Qed.
Lemma static_reported u solve cov p r : honest_blocks solve -> optimizeStatic u solve cov p = Ok r ->
  static_sizes p -> plain_wrists p -> (forall T, In T (sr_base_to_camera r) -> rigid T) ->
  rig_in_view (static_views p) (static_poses p r) ->
  sr_final_cost_per_obs r = rig_error (camera_of (sp_intr p)) (static_views p) (static_poses p r) /
                            INR (2 * List.length (static_views p)).
Proof.
  intros Ho E Sz PW RC V. set (n := List.length (sp_base_to_camera_guess p)).
  destruct (static_right p Sz PW) as (blocks & Ev & Res).
  destruct (Res u solve cov r E) as (m & s & Es & _ & Hz & Hl & Hcam & _ & Hf). fold n in Ev, Hz, Hl.
  assert (FD : forall c, (c < n)%nat -> nth c (sr_base_to_camera r) iso_id = iso_inv (poseCalToEigen (read_pose m c))).
  { intros c Hc. rewrite <- Hl in Hc. apply Hcam. apply nth_error_nth'. exact Hc. }
  assert (RM : forall c, (c < n)%nat -> rigid (poseCalToEigen (read_pose m c))).
  { intros c Hc. apply rigid_of_inv. rewrite <- (FD c Hc). apply RC, nth_In. rewrite Hl. exact Hc. }
  rewrite Hf. f_equal. apply (honest_rig _ _ _ _ _ _ _ _ _ Ho Es (Ev m RM)); [ | exact V ].
  intros c i x Hv. apply in_static_views in Hv as (Hc & _). unfold static_error, static_poses, static_wrist, camera_of.
  rewrite Hz, FD by exact Hc. reflexivity.
Qed.
Lemma wrist_reported solve p r : honest_blocks solve -> optimizeWrist solve p = Ok r ->
  wrist_sizes p -> (forall T, In T (wp_wrist_poses p) -> plain_pose T) ->
  (forall T, In T (wp_base_to_camera_guess p) -> plain_pose T) ->
  (forall T, In T (wr_base_to_camera r) -> rigid T) ->
  rig_in_view (wrist_views p) (wrist_poses p r) ->
  wr_final_cost_per_obs r = rig_error (camera_of (wp_intr p)) (wrist_views p) (wrist_poses p r) /
                            INR (2 * List.length (wrist_views p)) /\
  (rigid (wr_wrist_to_target r) ->
   rig_and_wrist (List.length (wp_base_to_camera_guess p)) (fun c => nth c (wp_base_to_camera_guess p) iso_id)
     (fun i => nth i (wp_wrist_poses p) iso_id) (wrist_poses p r)).
Proof.
  intros Ho E Sz PW PC RC V. set (n := List.length (wp_base_to_camera_guess p)).
  destruct (wrist_right p Sz PW PC) as (blocks & Ev & Res).
  destruct (Res solve) as (m & s & r' & Es & Er & _ & Hz & Hcam & _ & Hf). rewrite Er in E. injection E as ->.
  set (K := poseCalToEigen (read_pose m key_correction)) in *.
  assert (FD : forall c, (c < n)%nat -> nth c (wr_base_to_camera r) iso_id = iso_mul (iso_inv K) (nth c (wp_base_to_camera_guess p) iso_id)).
  { intros c Hc. rewrite Hcam.
    rewrite (nth_indep _ iso_id (iso_mul (iso_inv K) iso_id)) by (rewrite map_length; exact Hc). apply map_nth. }
  assert (Hl : List.length (wr_base_to_camera r) = n) by (rewrite Hcam, map_length; reflexivity).
  assert (RG : forall c, (c < n)%nat -> rigid (nth c (wp_base_to_camera_guess p) iso_id)) by (intros c Hc; apply plain_rigid, PC, nth_In, Hc).
  destruct n as [|n'] eqn:En.
  { assert (NV : wrist_views p = []).
    { unfold wrist_views. fold n. rewrite En. reflexivity. }
    split.
    - rewrite Hf. f_equal. specialize (Ho blocks (wrist_start p)). rewrite Es in Ho. rewrite Ho.
      rewrite NV in *.
      assert (B : blocks = []).
      { assert (Q := Ev (fun _ _ => 0)). cbv zeta in Q.
        assert (R0 : rigid (poseCalToEigen (read_pose (fun _ _ => 0) key_correction))).
        { apply cal_to_eigen_rigid. left. reflexivity. }
        specialize (Q R0). apply (f_equal (@List.length _)) in Q. rewrite !map_length in Q. destruct blocks; [ reflexivity | discriminate ]. }
      rewrite B. reflexivity.
    - intros RZ. exists iso_id, (wr_wrist_to_target r). split; [ apply rigid_id | split; [ exact RZ | intros c i Hc; lia ] ]. }
  rewrite <- En in *.
  assert (RK : rigid K).
  { assert (H0 : (0 < n)%nat) by lia. apply rigid_of_inv.
    assert (R : rigid (nth 0 (wr_base_to_camera r) iso_id)) by (apply RC, nth_In; lia). rewrite FD in R by exact H0.
    pose proof (rigid_mul _ _ R (rigid_inv _ (RG 0%nat H0))) as R'. rewrite iso_mul_assoc, iso_inv_r, iso_mul_id_r in R' by auto. exact R'. }
  specialize (Ev m RK). fold K in Ev. split.
  - rewrite Hf. f_equal. apply (honest_rig _ _ _ _ _ _ _ _ _ Ho Es Ev); [ | exact V ].
    intros c i x Hv. apply in_wrist_views in Hv as (Hc & _). unfold wrist_error, wrist_poses, camera_of.
    rewrite Hz, FD by exact Hc. reflexivity.
  - intros RZ. exists (iso_inv K), (wr_wrist_to_target r). split; [ apply rigid_inv, RK | split; [ exact RZ | ] ].
    intros c i Hc. unfold wrist_poses. rewrite FD by exact Hc. reflexivity.
Qed.
Lemma only_reported solve p r : honest_blocks solve -> leaves_others solve -> optimizeOnly solve p = Ok r ->
  only_sizes p ->
  (op_fix_first_camera p = true -> forall T, nth_error (op_base_to_camera_guess p) 0 = Some T -> plain_pose T) ->
  (forall T, In T (or_base_to_camera r) -> rigid T) ->
  rig_in_view (only_views p) (only_poses r) ->
  or_final_cost_per_obs r = rig_error (camera_of (op_intr p)) (only_views p) (only_poses r) /
                            INR (2 * List.length (only_views p)).
Proof.
  intros Ho Lo E Sz PF RC V. set (n := List.length (op_base_to_camera_guess p)).
  destruct (only_right p Sz PF) as (blocks & Ev & Res).
  destruct (Res solve) as (m & s & r' & Es & Er & _ & Ht & Hc & _ & Hf). rewrite Er in E. injection E as Err.
  rewrite Err in *. fold n in Ht, Hc, Ev.
  assert (Lc : List.length (or_base_to_camera r) = n) by (rewrite Hc, map_length, seq_length; reflexivity).
  assert (FC : forall c, (c < n)%nat -> nth c (or_base_to_camera r) iso_id = iso_inv (poseCalToEigen (read_pose m c))).
  { intros c Hc'. rewrite Hc. apply (nth_map_seq' (fun c => iso_inv (poseCalToEigen (read_pose m c)))), Hc'. }
  assert (FT : forall i, (i < List.length (op_base_to_target_guess p))%nat -> nth i (or_base_to_target r) iso_id = poseCalToEigen (read_pose m (n + i)%nat)).
  { intros i Hi. rewrite Ht. apply (nth_map_seq' (fun i => poseCalToEigen (read_pose m (n + i)%nat))), Hi. }
  assert (RM : forall c, (c < n)%nat -> rigid (poseCalToEigen (read_pose m c))).
  { intros c Hc'. apply rigid_of_inv. rewrite <- FC by exact Hc'. apply RC, nth_In. rewrite Lc. exact Hc'. }
  rewrite Hf. f_equal. apply (honest_rig _ _ _ _ _ _ _ _ _ Ho Es (Ev m RM)); [ | exact V ].
  intros c i x Hv. apply in_only_views in Hv as (Hc' & Hi & Hx). unfold only_error, only_poses, camera_of.
  rewrite <- FT by exact Hi. f_equal. f_equal. f_equal.
  destruct (op_fix_first_camera p) eqn:Ff; cbn [andb]; [ | symmetry; apply FC, Hc' ].
  destruct (Nat.eqb_spec c 0) as [->|_]; [ | symmetry; apply FC, Hc' ].
  pose proof (nth_error_nth' _ iso_id Hc') as G.
  assert (PG : plain_pose (nth 0 (op_base_to_camera_guess p) iso_id)) by (apply (PF eq_refl _ G)).
  assert (GN : op_base_to_target_guess p <> []) by (intros Q; rewrite Q in Hi; cbn in Hi; lia).
  pose proof (only_first_fixed p solve r _ Sz Lo Ff GN G PG Er) as Q.
  symmetry. apply nth_error_nth. exact Q.
Qed.
Lemma mpnp_reported solve p r : honest_blocks solve -> optimizeMpnp solve p = Ok r ->
  mpnp_sizes p -> (forall T, In T (mp_base_to_camera p) -> plain_pose T) ->
  rig_in_view (single_views p) (mpnp_poses p r) ->
  mr_final_cost_per_obs r = rig_error (camera_of (mp_intr p)) (single_views p) (mpnp_poses p r) /
                            INR (2 * List.length (single_views p)).
Proof.
  intros Ho E Sz PC V.
  destruct (mpnp_right p Sz PC) as (blocks & Ev & Res).
  destruct (Res solve) as (m0 & m & s & r' & _ & Es & Er & _ & Ht & _ & Hf).
  rewrite Er in E. injection E as ->. specialize (Ev m). rewrite <- Ht in Ev.
  assert (Ev' : map (fun b => rb_eval b m) blocks =
     map (fun v => let '(c, i, x) := v in mpnp_error p (mr_base_to_target r) (c, x)) (single_views p)).
  { rewrite Ev. unfold single_views. rewrite map_map. apply map_ext. intros [c x]. reflexivity. }
  rewrite Hf. unfold single_views at 2. rewrite map_length. f_equal.
  apply (honest_rig _ _ _ _ _ _ _ _ _ Ho Es Ev'); [ | exact V ]. intros c i x _. reflexivity.
Qed.

(** ** Comparisons *)
Lemma per_obs_times n e : (n = 0%nat -> e = 0) -> INR (2 * n) * (e / INR (2 * n)) = e.
Proof.
  intros H. destruct n as [|n]; [ rewrite H by reflexivity; cbn; unfold Rdiv; ring | ].
  field. apply not_0_INR. lia.
Qed.
Lemma per_obs_le n e e' : e <= e' -> e / INR n <= e' / INR n.
Proof.
  intros H. destruct n as [|n]; [ cbn; unfold Rdiv; rewrite Rinv_0; lra | ].
  apply Rmult_le_compat_r; [ | exact H ]. left. apply Rinv_0_lt_compat, lt_0_INR. lia.
Qed.
Lemma rig_empty k T vs : List.length vs = 0%nat -> rig_error k vs T = 0.
Proof. destruct vs; [ intros _ | discriminate ]. unfold rig_error, half_squares. cbn. ring. Qed.
Lemma pose_empty k cs T : List.length cs = 0%nat -> pose_error k cs T = 0.
Proof. destruct cs; [ intros _ | discriminate ]. unfold pose_error, half_squares. cbn. ring. Qed.
Lemma images_empty k ss X Z : List.length ss = 0%nat -> image_error k ss X Z = 0.
Proof. destruct ss; [ intros _ | discriminate ]. unfold image_error, half_squares. cbn. ring. Qed.

Lemma estimated_error k cs r : estimated k cs r ->
  INR (2 * List.length cs) * pnp_final_cost_per_obs r = pose_error k cs (pnp_camera_to_target r).
Proof.
  intros (u & solve & cov & p & Ho & E & Ek & Ec & AF & _). rewrite <- Ec in AF.
  rewrite (pnp_error2 _ _ _ _ _ Ho E AF), Ec, Ek. apply per_obs_times. apply pose_empty.
Qed.
Lemma estimated_best k cs r T : estimated k cs r -> rigid T -> (forall c, In c cs -> 0 < vz (iso_app T (in_target c))) ->
  pose_error k cs (pnp_camera_to_target r) <= pose_error k cs T.
Proof. intros (u & solve & cov & p & _ & _ & _ & _ & _ & (_ & _ & B)). apply B. Qed.

Lemma sum_combine {A B} (P : A -> B -> Prop) (f : A * B -> R) (g : A -> R) l l' : Forall2 P l l' ->
  (forall a b, In a l -> P a b -> f (a, b) <= g a) -> sum_over (combine l l') f <= sum_over l g.
Proof.
  induction 1 as [|a b l l' Hab H IH]; intros F; cbn [combine]; [ unfold sum_over; cbn; lra | ].
  rewrite !sum_cons. apply Rplus_le_compat; [ apply F; [ left; reflexivity | exact Hab ] | ].
  apply IH. intros a' b' Ha'. apply F. right. exact Ha'.
Qed.
Lemma pictures_vs_hand_eye u solve cov p r rs :
  honest solve -> optimize2D3D u solve cov p = Ok r -> plain_obs (h2_observations p) ->
  in_view (sightings (h2_observations p)) (he_camera_mount_to_camera r) (he_target_mount_to_target r) ->
  Forall2 (fun o => estimated (h2_intr p) (correspondence_set o)) (h2_observations p) rs ->
  sum_over (combine (h2_observations p) rs)
    (fun o => INR (2 * List.length (correspondence_set (fst o))) * pnp_final_cost_per_obs (snd o)) <=
  INR (2 * List.length (sightings (h2_observations p))) * he_final_cost_per_obs r.
Proof.
  intros Ho E PO V P. rewrite (he_error2 _ _ _ _ _ Ho E PO V), per_obs_times by apply images_empty.
  rewrite he_by_picture. apply (sum_combine _ _ _ _ _ P). intros o ro Io Po. cbn [fst snd]. rewrite (estimated_error _ _ _ Po).
  destruct V as (RX & RZ & V). destruct (PO o Io) as [P1 P2].
  apply (estimated_best _ _ _ _ Po).
  - apply rigid_mul; [ apply rigid_inv | ]; apply rigid_mul; try assumption; apply plain_rigid; assumption.
  - intros c Ic. apply (V (Sighting (to_camera_mount o) (to_target_mount o) (in_target c) (in_image c))).
    apply in_flat_map. exists o. split; [ exact Io | ]. apply in_map_iff. exists c. auto.
Qed.
Lemma pictures_vs_rig k images order T rp : rig_in_view (views images order) T ->
  (forall c i, In (c, i) order -> estimated (k c) (images_of images c i) (rp c i)) ->
  sum_over order (fun ci => INR (2 * List.length (images_of images (fst ci) (snd ci))) *
                            pnp_final_cost_per_obs (rp (fst ci) (snd ci))) <=
  rig_error k (views images order) T.
Proof.
  intros V P. rewrite rig_by_picture. apply sum_le. intros [c i] Ho. cbn [fst snd].
  rewrite (estimated_error _ _ _ (P c i Ho)).
  destruct (images_of images c i) as [|x0 cs] eqn:Ei.
  { rewrite !pose_empty by reflexivity. lra. }
  assert (In (c, i, x0) (views images order)) as H0.
  { apply in_views. split; [ exact Ho | ]. fold (images_of images c i). rewrite Ei. left. reflexivity. }
  rewrite <- Ei. apply (estimated_best (k c)).
  - apply P, Ho.
  - apply (V c i x0 H0).
  - intros x Hx. apply (V c i x). apply in_views. split; [ exact Ho | exact Hx ].
Qed.

(** Two results of which the first may adjust more. *)
Lemma best_of_le (F G : poses -> Prop) k vs T T' : (forall P, G P -> F P) -> best_of F k vs T -> G T' -> rig_in_view vs T' ->
  rig_error k vs T <= rig_error k vs T'.
Proof. intros I (_ & _ & B) HG V. apply B; [ apply I, HG | exact V ]. Qed.
Lemma rig_is_cameras n cameras wrist T : (forall c, rigid (cameras c)) ->
  rig_and_wrist n cameras wrist T -> cameras_and_wrist n (fun _ => wrist) T.
Proof.
  intros RC (K & Z & RK & RZ & E). exists (fun c => iso_mul K (cameras c)), Z.
  split; [ intros c; apply rigid_mul; auto | split; [ exact RZ | exact E ] ].
Qed.
Lemma rig_is_targets n cameras wrist T : (forall c, rigid (cameras c)) -> (forall i, rigid (wrist i)) ->
  rig_and_wrist n cameras wrist T -> cameras_and_targets n T.
Proof.
  intros RC RW (K & Z & RK & RZ & E). exists (fun c => iso_mul K (cameras c)), (fun i => iso_mul (wrist i) Z).
  split; [ intros c; apply rigid_mul; auto | split; [ intros i; apply rigid_mul; auto | exact E ] ].
Qed.
Lemma nth_rigid l : (forall T, In T l -> plain_pose T) -> forall c, rigid (nth c l iso_id).
Proof.
  intros H c. destruct (Nat.lt_ge_cases c (List.length l)) as [L|L]; [ apply plain_rigid, H, nth_In, L | ].
  rewrite nth_overflow by exact L. apply rigid_id.
Qed.
Lemma nth_rigid' l : (forall T, In T l -> rigid T) -> forall c, rigid (nth c l iso_id).
Proof.
  intros H c. destruct (Nat.lt_ge_cases c (List.length l)) as [L|L]; [ apply H, nth_In, L | ].
  rewrite nth_overflow by exact L. apply rigid_id.
Qed.

Lemma camera_major_ext f g n : (forall c, (c < n)%nat -> f c = g c) -> camera_major f n = camera_major g n.
Proof.
  intros H. unfold camera_major. apply flat_map_same. intros c Hc. apply in_seq in Hc. rewrite H by lia. reflexivity.
Qed.
Lemma flat_map_two {A B} (f g : A -> list B) l : Permutation (flat_map (fun a => f a ++ g a) l) (flat_map f l ++ flat_map g l).
Proof.
  induction l as [|a l IH]; cbn; [ apply Permutation_refl | ].
  rewrite <- !app_assoc. apply Permutation_app_head.
  etransitivity; [ apply Permutation_app_head, IH | ]. rewrite !app_assoc. apply Permutation_app_tail, Permutation_app_comm.
Qed.
Lemma flat_map_nil {A B} (l : list A) : flat_map (fun _ => @nil B) l = [].
Proof. induction l; cbn; auto. Qed.
Lemma majors n m : Permutation (camera_major (fun _ => m) n) (image_major m n).
Proof.
  unfold camera_major, image_major. generalize (seq 0 n) as cs, (seq 0 m) as is. intros cs is.
  induction cs as [|c cs IH]; cbn.
  - rewrite flat_map_nil. apply Permutation_refl.
  - etransitivity; [ apply Permutation_app_head, IH | ]. clear IH. induction is as [|i is IH]; cbn; [ apply Permutation_refl | ].
    constructor. etransitivity; [ apply Permutation_app_swap_app | ]. apply Permutation_app_head, IH.
Qed.
Lemma views_perm images o o' : Permutation o o' -> Permutation (views images o) (views images o').
Proof.
  unfold views. induction 1; cbn; [ constructor | apply Permutation_app_head; assumption | | etransitivity; eassumption ].
  rewrite !app_assoc. apply Permutation_app_tail, Permutation_app_comm.
Qed.
Lemma rig_perm k vs vs' T : Permutation vs vs' -> rig_error k vs T = rig_error k vs' T.
Proof. intros P. apply (half_squares_perm _ _ _ P). Qed.

Lemma static_vs_wrist u solve cov p r solve' q r' :
  honest_blocks solve -> honest_blocks solve' ->
  optimizeStatic u solve cov p = Ok r -> optimizeWrist solve' q = Ok r' ->
  static_sizes p -> plain_wrists p -> wrist_sizes q ->
  (forall T, In T (wp_wrist_poses q) -> plain_pose T) -> (forall T, In T (wp_base_to_camera_guess q) -> plain_pose T) ->
  static_of_wrist p q ->
  (forall T, In T (sr_base_to_camera r) -> rigid T) ->
  (forall T, In T (wr_base_to_camera r') -> rigid T) -> rigid (wr_wrist_to_target r') ->
  rig_in_view (wrist_views q) (wrist_poses q r') ->
  best_of (cameras_and_wrist (List.length (sp_base_to_camera_guess p)) (static_wrist p)) (camera_of (sp_intr p))
          (static_views p) (static_poses p r) ->
  sr_final_cost_per_obs r <= wr_final_cost_per_obs r'.
Proof.
  intros Ho Ho' E E' Sz PW Sz' PW' PC' (En & Ek & Ei & Ew) RC RC' RZ' V' B.
  destruct (wrist_reported _ _ _ Ho' E' Sz' PW' PC' RC' V') as [R' F']. specialize (F' RZ').
  rewrite (static_reported _ _ _ _ _ Ho E Sz PW RC (proj1 (proj2 B))), R'.
  assert (EV : static_views p = wrist_views q).
  { unfold static_views, wrist_views. rewrite Ei, En. f_equal. apply camera_major_ext. intros c Hc. rewrite Ew by exact Hc. reflexivity. }
  rewrite EV in *. apply per_obs_le. rewrite Ek in *. apply (proj2 (proj2 B)); [ | exact V' ].
  apply rig_is_cameras in F'; [ | apply nth_rigid, PC' ]. destruct F' as (C & Z & H1 & H2 & H3). exists C, Z.
  split; [ exact H1 | split; [ exact H2 | ] ]. intros c i Hc. rewrite H3 by lia. unfold static_wrist. rewrite Ew by lia. reflexivity.
Qed.
Lemma only_vs_wrist solve p r solve' q r' :
  honest_blocks solve -> leaves_others solve -> honest_blocks solve' ->
  optimizeOnly solve p = Ok r -> optimizeWrist solve' q = Ok r' ->
  only_sizes p -> wrist_sizes q ->
  (op_fix_first_camera p = true -> forall T, nth_error (op_base_to_camera_guess p) 0 = Some T -> plain_pose T) ->
  (forall T, In T (wp_wrist_poses q) -> plain_pose T) -> (forall T, In T (wp_base_to_camera_guess q) -> plain_pose T) ->
  only_of_wrist p q ->
  (forall T, In T (or_base_to_camera r) -> rigid T) ->
  (forall T, In T (wr_base_to_camera r') -> rigid T) -> rigid (wr_wrist_to_target r') ->
  rig_in_view (wrist_views q) (wrist_poses q r') ->
  best_of (cameras_and_targets (List.length (op_base_to_camera_guess p))) (camera_of (op_intr p)) (only_views p) (only_poses r) ->
  or_final_cost_per_obs r <= wr_final_cost_per_obs r'.
Proof.
  intros Ho Lo Ho' E E' Sz Sz' PF PW' PC' (En & Ek & Ei & Et) RC RC' RZ' V' B.
  destruct (wrist_reported _ _ _ Ho' E' Sz' PW' PC' RC' V') as [R' F']. specialize (F' RZ').
  rewrite (only_reported _ _ _ Ho Lo E Sz PF RC (proj1 (proj2 B))), R'.
  assert (EV : Permutation (wrist_views q) (only_views p)).
  { unfold only_views, wrist_views. rewrite Ei, En, Et. apply views_perm, majors. }
  rewrite (Permutation_length EV), (rig_perm _ _ _ _ EV). apply per_obs_le. rewrite Ek in *. apply (proj2 (proj2 B)).
  - rewrite En. apply (rig_is_targets _ _ _ _ (nth_rigid _ PC') (nth_rigid _ PW') F').
  - intros c i x Hv. apply V'. apply (Permutation_in _ (Permutation_sym EV)), Hv.
Qed.

(** ** The static cameras one by one *)
Lemma tic_static C W Z : target_in_camera C iso_id W Z = iso_mul (iso_inv C) (iso_mul W Z).
Proof. unfold target_in_camera. rewrite iso_mul_id_l. reflexivity. Qed.
Lemma static_by_camera k p (T : poses) C Z : (forall c i, (c < List.length (sp_base_to_camera_guess p))%nat ->
    T c i = iso_mul (iso_inv (C c)) (iso_mul (static_wrist p c i) Z)) ->
  rig_error k (static_views p) T =
  sum_over (seq 0 (List.length (sp_base_to_camera_guess p))) (fun c => image_error (k c) (sightings (static_observations p c)) (C c) Z).
Proof.
  intros E. unfold static_views. rewrite rig_by_picture. unfold camera_major. rewrite sum_flat. apply sum_eq. intros c Hc.
  apply in_seq in Hc. rewrite sum_map, he_by_picture. unfold static_observations. rewrite sum_map. apply sum_eq. intros i _.
  cbn [fst snd correspondence_set to_camera_mount to_target_mount]. rewrite tic_static, E by lia. reflexivity.
Qed.
Lemma in_static_sightings p c s : In s (sightings (static_observations p c)) <->
  exists i x, (i < List.length (nth c (sp_wrist_poses p) []))%nat /\ In x (images_of (sp_image_observations p) c i) /\
    s = Sighting iso_id (static_wrist p c i) (in_target x) (in_image x).
Proof.
  unfold sightings, static_observations. rewrite in_flat_map. split.
  - intros (o & Io & Is). apply in_map_iff in Io as (i & <- & Hi). apply in_seq in Hi. cbn in Is.
    apply in_map_iff in Is as (x & <- & Hx). exists i, x. split; [ lia | auto ].
  - intros (i & x & Hi & Hx & ->). eexists. split; [ apply in_map_iff; exists i; split; [ reflexivity | apply in_seq; lia ] | ].
    cbn. apply in_map_iff. exists x. auto.
Qed.
Lemma static_views_cameras p (T : poses) C Z : (forall c, rigid (C c)) -> rigid Z -> plain_wrists p ->
  (forall c i, (c < List.length (sp_base_to_camera_guess p))%nat -> T c i = iso_mul (iso_inv (C c)) (iso_mul (static_wrist p c i) Z)) ->
  (rig_in_view (static_views p) T <->
   forall c, (c < List.length (sp_base_to_camera_guess p))%nat -> in_view (sightings (static_observations p c)) (C c) Z).
Proof.
  intros RC RZ PW E. split.
  - intros V c Hc. split; [ apply RC | split; [ exact RZ | ] ]. intros s Is. apply in_static_sightings in Is as (i & x & Hi & Hx & ->).
    unfold seen_at. cbn [camera_mount target_mount point]. rewrite tic_static, <- E by exact Hc.
    apply (V c i x), in_static_views. auto.
  - intros V c i x Hv. apply in_static_views in Hv as (Hc & Hi & Hx). rewrite E by exact Hc. split.
    + apply rigid_mul; [ apply rigid_inv, RC | apply rigid_mul; [ apply plain_rigid, (PW c), nth_In, Hi | exact RZ ] ].
    + destruct (V c Hc) as (_ & _ & V'). rewrite <- tic_static.
      apply (V' (Sighting iso_id (static_wrist p c i) (in_target x) (in_image x))). apply in_static_sightings. exists i, x. auto.
Qed.
Lemma plain_iso_id : plain_pose iso_id.
Proof. split; [ apply rigid_id | left; reflexivity ]. Qed.
Lemma static_plain p c : plain_wrists p -> plain_obs (static_observations p c).
Proof.
  intros PW o Io. apply in_map_iff in Io as (i & <- & Hi). apply in_seq in Hi. cbn. split; [ apply plain_iso_id | ].
  apply (PW c), nth_In. lia.
Qed.
Lemma cameras_vs_static u solve cov p r hr :
  let n := List.length (sp_base_to_camera_guess p) in
  honest_blocks solve -> optimizeStatic u solve cov p = Ok r -> static_sizes p -> plain_wrists p ->
  (forall T, In T (sr_base_to_camera r) -> rigid T) -> rigid (sr_wrist_to_target r) ->
  rig_in_view (static_views p) (static_poses p r) ->
  (forall c, (c < n)%nat -> calibrated (camera_of (sp_intr p) c) (static_observations p c) (hr c)) ->
  sum_over (seq 0 n) (fun c => INR (2 * List.length (sightings (static_observations p c))) * he_final_cost_per_obs (hr c)) <=
  INR (2 * List.length (static_views p)) * sr_final_cost_per_obs r.
Proof.
  intros n Ho E Sz PW RC RZ V H. rewrite (static_reported _ _ _ _ _ Ho E Sz PW RC V), per_obs_times by apply rig_empty.
  rewrite (static_by_camera _ p _ (fun c => nth c (sr_base_to_camera r) iso_id) (sr_wrist_to_target r)) by reflexivity.
  apply sum_le. intros c Hc. apply in_seq in Hc. assert (Hc' : (c < n)%nat) by (unfold n; lia).
  destruct (H c Hc') as (u' & solve' & cov' & q & Ho' & E' & Ek & Eo & B).
  rewrite <- Ek, <- Eo in B. rewrite <- Eo.
  rewrite (he_error2 _ _ _ _ _ Ho' E'); [ | rewrite Eo; apply static_plain, PW | apply B ].
  rewrite per_obs_times by apply images_empty. rewrite Ek. rewrite Ek in B. apply (proj2 B). rewrite Eo.
  apply (proj1 (static_views_cameras p (static_poses p r) (fun c => nth c (sr_base_to_camera r) iso_id) _ (nth_rigid' _ RC) RZ PW (fun _ _ _ => eq_refl)) V c Hc').
Qed.
Lemma one_static_camera u solve cov p r hr :
  honest_blocks solve -> optimizeStatic u solve cov p = Ok r -> static_sizes p -> plain_wrists p ->
  List.length (sp_base_to_camera_guess p) = 1%nat ->
  (forall T, In T (sr_base_to_camera r) -> rigid T) -> rigid (sr_wrist_to_target r) ->
  best_of (cameras_and_wrist 1 (static_wrist p)) (camera_of (sp_intr p)) (static_views p) (static_poses p r) ->
  calibrated (camera_of (sp_intr p) 0) (static_observations p 0) hr ->
  sr_final_cost_per_obs r = he_final_cost_per_obs hr /\
  best_for_images (camera_of (sp_intr p) 0) (sightings (static_observations p 0))
    (nth 0 (sr_base_to_camera r) iso_id) (sr_wrist_to_target r).
Proof.
  intros Ho E Sz PW N RC RZ B (u' & solve' & cov' & q & Ho' & E' & Ek & Eo & B').
  pose proof (proj1 (proj2 B)) as V.
  assert (EE : forall T C Z, (forall c i, (c < 1)%nat -> T c i = iso_mul (iso_inv (C c)) (iso_mul (static_wrist p c i) Z)) ->
    rig_error (camera_of (sp_intr p)) (static_views p) T = image_error (camera_of (sp_intr p) 0) (sightings (static_observations p 0)) (C 0%nat) Z).
  { intros T C Z HT. rewrite (static_by_camera _ p T C Z) by (rewrite N; exact HT). rewrite N. cbn. ring. }
  assert (IV : forall T C Z, (forall c, rigid (C c)) -> rigid Z -> (forall c i, (c < 1)%nat -> T c i = iso_mul (iso_inv (C c)) (iso_mul (static_wrist p c i) Z)) ->
    (rig_in_view (static_views p) T <-> in_view (sightings (static_observations p 0)) (C 0%nat) Z)).
  { intros T C Z HC HZ HT. rewrite (static_views_cameras p T C Z HC HZ PW) by (rewrite N; exact HT). rewrite N. split.
    - intros Q. apply (Q 0%nat). lia.
    - intros Q c Hc. replace c with 0%nat by lia. exact Q. }
  set (C0 := fun c => nth c (sr_base_to_camera r) iso_id). set (Z0 := sr_wrist_to_target r) in *.
  assert (BB : best_for_images (camera_of (sp_intr p) 0) (sightings (static_observations p 0)) (C0 0%nat) Z0).
  { split; [ apply (IV (static_poses p r) C0 Z0 (nth_rigid' _ RC) RZ (fun _ _ _ => eq_refl)), V | ].
    intros X' Z' V'. destruct V' as (RX' & RZ' & V'').
    rewrite <- (EE (static_poses p r) C0 Z0) by reflexivity.
    rewrite <- (EE (fun c i => iso_mul (iso_inv X') (iso_mul (static_wrist p c i) Z')) (fun _ => X') Z') by reflexivity.
    apply (proj2 (proj2 B)).
    - exists (fun _ => X'), Z'. split; [ intros _; exact RX' | split; [ exact RZ' | reflexivity ] ].
    - apply (IV _ (fun _ => X') Z'); try assumption; try reflexivity; [ intros _; exact RX' | ]. split; [ exact RX' | split; assumption ]. }
  split; [ | exact BB ].
  rewrite <- Ek, <- Eo in B'.
  rewrite (he_error2 _ _ _ _ _ Ho' E'); [ | rewrite Eo; apply static_plain, PW | apply B' ].
  rewrite (static_reported _ _ _ _ _ Ho E Sz PW RC V), (EE (static_poses p r) C0 Z0) by reflexivity.
  rewrite <- Ek, <- Eo in BB |- *. rewrite (best_images_error _ _ _ _ _ _ BB B'). f_equal. f_equal. f_equal. rewrite Eo.
  unfold static_views, views, camera_major. rewrite N. cbn [seq flat_map]. rewrite app_nil_r.
  unfold sightings, static_observations. rewrite !flat_map_map.
  clear. generalize (seq 0 (List.length (nth 0 (sp_wrist_poses p) []))). intros l. induction l as [|i l IH]; [ reflexivity | ].
  cbn. rewrite !app_length, !map_length. f_equal. exact IH.
Qed.

(** ** One camera that sees a target at rest *)
Lemma one_camera_pnp solve p r rp :
  honest_blocks solve -> optimizeMpnp solve p = Ok r -> mpnp_sizes p ->
  (forall T, In T (mp_base_to_camera p) -> plain_pose T) ->
  List.length (mp_base_to_camera p) = 1%nat ->
  best_of (known_cameras 1 (fun c => nth c (mp_base_to_camera p) iso_id)) (camera_of (mp_intr p)) (single_views p) (mpnp_poses p r) ->
  estimated (camera_of (mp_intr p) 0) (nth 0 (mp_image_observations p) []) rp ->
  mr_final_cost_per_obs r = pnp_final_cost_per_obs rp.
Proof.
  intros Ho E Sz PC N B Es. pose proof (nth_rigid _ PC 0%nat) as RC.
  rewrite (mpnp_reported _ _ _ Ho E Sz PC (proj1 (proj2 B))).
  set (cs := nth 0 (mp_image_observations p) []) in *. set (k := camera_of (mp_intr p)) in *.
  assert (SV : single_views p = map (fun x => (0%nat, 0%nat, x)) cs).
  { unfold single_views, mpnp_views. rewrite N. cbn [seq flat_map]. rewrite app_nil_r, map_map. reflexivity. }
  assert (EE : forall T, rig_error k (single_views p) T = pose_error (k 0%nat) cs (T 0%nat 0%nat)).
  { intros T. unfold rig_error, pose_error. rewrite SV, flat_map_map. reflexivity. }
  rewrite EE, SV, map_length.
  pose proof (estimated_error _ _ _ Es) as Q.
  assert (EQ : pose_error (k 0%nat) cs (mpnp_poses p r 0%nat 0%nat) = pose_error (k 0%nat) cs (pnp_camera_to_target rp)).
  { pose proof Es as (u & solve' & cov & q & Ho' & E' & Ek & Ec & AF & (RT & VT & BT)). apply Rle_antisym.
    - rewrite <- EE, <- (EE (fun c i => pnp_camera_to_target rp)). apply (proj2 (proj2 B)).
      + exists (iso_mul (nth 0 (mp_base_to_camera p) iso_id) (pnp_camera_to_target rp)). split; [ apply rigid_mul; assumption | ].
        intros c i Hc. replace c with 0%nat by lia. symmetry. apply inv_cancel', RC.
      + intros c i x Hv. rewrite SV in Hv. apply in_map_iff in Hv as (x' & [= <- <- <-] & Hx). split; [ exact RT | apply VT, Hx ].
    - apply BT.
      + destruct (proj1 B) as (K & RK & HK). rewrite HK by lia. apply rigid_mul; [ apply rigid_inv, RC | exact RK ].
      + intros x Hx. apply (proj1 (proj2 B) 0%nat 0%nat x). rewrite SV. apply in_map, Hx. }
  rewrite EQ. destruct Es as (u & solve' & cov & q & Ho' & E' & Ek & Ec & AF & _). rewrite <- Ec in AF.
  rewrite (pnp_error2 _ _ _ _ _ Ho' E' AF), Ec, Ek. reflexivity.
Qed.
Lemma pictures_vs_mpnp solve p r rp :
  honest_blocks solve -> optimizeMpnp solve p = Ok r -> mpnp_sizes p ->
  (forall T, In T (mp_base_to_camera p) -> plain_pose T) ->
  rig_in_view (single_views p) (mpnp_poses p r) ->
  (forall c, (c < List.length (mp_base_to_camera p))%nat ->
     estimated (camera_of (mp_intr p) c) (nth c (mp_image_observations p) []) (rp c)) ->
  sum_over (seq 0 (List.length (mp_base_to_camera p)))
    (fun c => INR (2 * List.length (nth c (mp_image_observations p) [])) * pnp_final_cost_per_obs (rp c)) <=
  INR (2 * List.length (single_views p)) * mr_final_cost_per_obs r.
Proof.
  intros Ho E Sz PC V P. rewrite (mpnp_reported _ _ _ Ho E Sz PC V), per_obs_times by apply rig_empty.
  set (n := List.length (mp_base_to_camera p)) in *.
  assert (SV : single_views p = views (map (fun cs => [cs]) (mp_image_observations p)) (map (fun c => (c, 0%nat)) (seq 0 n))).
  { unfold single_views, mpnp_views, views. rewrite flat_map_map. fold n. generalize (seq 0 n). intros l. induction l as [|c l IH]; [ reflexivity | ].
    cbn. rewrite map_app, IH, map_map. f_equal.

    destruct (Nat.lt_ge_cases c (List.length (mp_image_observations p))) as [L|L].
    - rewrite (nth_indep _ _ ((fun cs => [cs]) [])) by (rewrite map_length; exact L). rewrite (map_nth (fun cs => [cs])). reflexivity.
    - rewrite (nth_overflow (map _ _)) by (rewrite map_length; exact L). rewrite (nth_overflow (mp_image_observations p)) by exact L. reflexivity. }
  assert (EI : forall c, images_of (map (fun cs => [cs]) (mp_image_observations p)) c 0 = nth c (mp_image_observations p) []).
  { intros c. unfold images_of. destruct (Nat.lt_ge_cases c (List.length (mp_image_observations p))) as [L|L].
    - rewrite (nth_indep _ _ ((fun cs => [cs]) [])) by (rewrite map_length; exact L). rewrite (map_nth (fun cs => [cs])). reflexivity.
    - rewrite (nth_overflow (map _ _)) by (rewrite map_length; exact L). rewrite (nth_overflow (mp_image_observations p)) by exact L. reflexivity. }
  rewrite SV in V |- *. eapply Rle_trans; [ | apply (pictures_vs_rig _ _ _ _ (fun c _ => rp c) V) ].
  - rewrite sum_map. right. apply sum_eq. intros c _. cbn [fst snd]. rewrite EI. reflexivity.
  - intros c i Hci. apply in_map_iff in Hci as (c' & [= <- <-] & Hc). apply in_seq in Hc. rewrite EI. apply P. lia.
Qed.
Lemma pictures_vs_static u solve cov p r rp :
  honest_blocks solve -> optimizeStatic u solve cov p = Ok r -> static_sizes p -> plain_wrists p ->
  (forall T, In T (sr_base_to_camera r) -> rigid T) ->
  rig_in_view (static_views p) (static_poses p r) ->
  (forall c i, (c < List.length (sp_base_to_camera_guess p))%nat -> (i < List.length (nth c (sp_wrist_poses p) []))%nat ->
     estimated (camera_of (sp_intr p) c) (images_of (sp_image_observations p) c i) (rp c i)) ->
  sum_over (seq 0 (List.length (sp_base_to_camera_guess p))) (fun c => sum_over (seq 0 (List.length (nth c (sp_wrist_poses p) [])))
    (fun i => INR (2 * List.length (images_of (sp_image_observations p) c i)) * pnp_final_cost_per_obs (rp c i))) <=
  INR (2 * List.length (static_views p)) * sr_final_cost_per_obs r.
Proof.
  intros Ho E Sz PW RC V P. rewrite (static_reported _ _ _ _ _ Ho E Sz PW RC V), per_obs_times by apply rig_empty.
  eapply Rle_trans; [ | apply (pictures_vs_rig _ _ _ _ rp V) ].
  - unfold camera_major. rewrite sum_flat. right. apply sum_eq. intros c _. rewrite sum_map. reflexivity.
  - intros c i Hci. unfold camera_major in Hci. apply in_flat_map in Hci as (c' & Hc & Hi). apply in_map_iff in Hi as (i' & [= <- <-] & Hi).
    apply in_seq in Hc. apply in_seq in Hi. apply P; lia.
Qed.
Lemma pictures_vs_only solve p r rp :
  honest_blocks solve -> leaves_others solve -> optimizeOnly solve p = Ok r -> only_sizes p ->
  (op_fix_first_camera p = true -> forall T, nth_error (op_base_to_camera_guess p) 0 = Some T -> plain_pose T) ->
  (forall T, In T (or_base_to_camera r) -> rigid T) ->
  rig_in_view (only_views p) (only_poses r) ->
  (forall c i, (c < List.length (op_base_to_camera_guess p))%nat -> (i < List.length (op_base_to_target_guess p))%nat ->
     estimated (camera_of (op_intr p) c) (images_of (op_image_observations p) c i) (rp c i)) ->
  sum_over (seq 0 (List.length (op_base_to_target_guess p))) (fun i => sum_over (seq 0 (List.length (op_base_to_camera_guess p)))
    (fun c => INR (2 * List.length (images_of (op_image_observations p) c i)) * pnp_final_cost_per_obs (rp c i))) <=
  INR (2 * List.length (only_views p)) * or_final_cost_per_obs r.
Proof.
  intros Ho Lo E Sz PF RC V P. rewrite (only_reported _ _ _ Ho Lo E Sz PF RC V), per_obs_times by apply rig_empty.
  eapply Rle_trans; [ | apply (pictures_vs_rig _ _ _ _ rp V) ].
  - unfold image_major. rewrite sum_flat. right. apply sum_eq. intros i _. rewrite sum_map. reflexivity.
  - intros c i Hci. unfold image_major in Hci. apply in_flat_map in Hci as (i' & Hi & Hc). apply in_map_iff in Hc as (c' & [= <- <-] & Hc).
    apply in_seq in Hc. apply in_seq in Hi. apply P; lia.
Qed.
