(** Proofs about the pictures of several cameras described in two ways. *)
From Coq Require Import Reals Arith List Permutation Lra Lia.
From Verif.Base Require Import Geom Outcome.
From Verif.Model Require Import Pose Covariance Solver HandEye Pnp BlockSolver MultiCamera.
From Verif.Spec Require Import Frames PinHole OracleSpec PnpSpec MultiSpec UniqueSpec SameDataSpec ToolsAgreeSpec RigChoicesSpec.
From Verif.Proofs Require Import GeomLemmas MultiCameraProofs UniqueProofs SameDataProofs ToolsAgreeProofs.
Import ListNotations.
Local Open Scope R_scope.

(** ** Reordering *)
Lemma reorders_lt f n : reorders f n -> forall c, (c < n)%nat -> (f c < n)%nat.
Proof.
  intros P c Hc. assert (H : In (f c) (seq 0 n)) by (apply (Permutation_in _ P), in_map, in_seq; lia). apply in_seq in H. lia.
Qed.
Lemma reorders_inv f n : reorders f n -> exists g, forall c, (c < n)%nat -> g (f c) = c.
Proof.
  intros P. exists (fun y => match find (fun c => Nat.eqb (f c) y) (seq 0 n) with Some c => c | None => 0%nat end).
  intros c Hc. assert (ND : NoDup (map f (seq 0 n))) by (apply (Permutation_NoDup (Permutation_sym P)), seq_NoDup).
  assert (I : In c (seq 0 n)) by (apply in_seq; lia). clear P Hc. revert ND I. generalize (seq 0 n). intros l.
  induction l as [|a l IH]; intros ND I; [ destruct I | ]. cbn [map] in ND. inversion ND as [|? ? N1 N2]; subst. cbn [find].
  destruct (Nat.eqb_spec (f a) (f c)) as [E|E].
  - destruct I as [->|I]; [ reflexivity | ]. exfalso. apply N1. rewrite E. apply in_map, I.
  - destruct I as [->|I]; [ congruence | ]. apply IH; assumption.
Qed.
Lemma flat_map_perm_pointwise {A B} (f g : A -> list B) l : (forall a, In a l -> Permutation (f a) (g a)) ->
  Permutation (flat_map f l) (flat_map g l).
Proof.
  induction l as [|a l IH]; intros H; [ constructor | ]. cbn. apply Permutation_app.
  - apply H. left. reflexivity.
  - apply IH. intros b Hb. apply H. right. exact Hb.
Qed.
Lemma flat_map_perm {A B} (f : A -> list B) l l' : Permutation l l' -> Permutation (flat_map f l) (flat_map f l').
Proof.
  induction 1; cbn; [ constructor | apply Permutation_app_head; assumption | | etransitivity; eassumption ].
  rewrite !app_assoc. apply Permutation_app_tail, Permutation_app_comm.
Qed.
Lemma map_flat_map {A B C} (f : B -> C) (g : A -> list B) l : map f (flat_map g l) = flat_map (fun a => map f (g a)) l.
Proof. induction l as [|a l IH]; cbn; [ reflexivity | rewrite map_app, IH; reflexivity ]. Qed.
Definition was (h : rig_choices) (ci : nat * nat) : nat * nat := (was_camera h (fst ci), was_image h (fst ci) (snd ci)).
Lemma camera_major_reordered h (len len' : nat -> nat) n : reorders (was_camera h) n ->
  (forall c, (c < n)%nat -> len' c = len (was_camera h c) /\ reorders (was_image h c) (len (was_camera h c))) ->
  Permutation (map (was h) (camera_major len' n)) (camera_major len n).
Proof.
  intros P H. unfold camera_major. rewrite map_flat_map.
  etransitivity; [ | apply (flat_map_perm _ _ _ P) ]. rewrite flat_map_map. apply flat_map_perm_pointwise.
  intros c Hc. apply in_seq in Hc. destruct (H c ltac:(lia)) as [-> Q]. rewrite map_map. unfold was. cbn [fst snd].
  rewrite <- (map_map (was_image h c) (fun i => (was_camera h c, i))). apply Permutation_map, Q.
Qed.
Lemma image_major_reordered h m n : reorders (was_camera h) n -> same_for_all (was_image h) -> reorders (was_image h 0) m ->
  Permutation (map (was h) (image_major m n)) (image_major m n).
Proof.
  intros P S Q. etransitivity; [ apply Permutation_map, Permutation_sym, majors | ]. etransitivity; [ | apply majors ].
  apply camera_major_reordered; [ exact P | ]. intros c Hc. split; [ reflexivity | ]. unfold reorders.
  rewrite (map_ext _ (was_image h 0)) by (intros i; apply S). exact Q.
Qed.
Lemma in_camera_major len n c i : In (c, i) (camera_major len n) <-> (c < n)%nat /\ (i < len c)%nat.
Proof.
  unfold camera_major. rewrite in_flat_map. split.
  - intros (c' & Hc & Hi). apply in_map_iff in Hi as (i' & [= <- <-] & Hi). apply in_seq in Hc. apply in_seq in Hi. lia.
  - intros [Hc Hi]. exists c. split; [ apply in_seq; lia | ]. apply in_map, in_seq. lia.
Qed.
Lemma in_image_major m n c i : In (c, i) (image_major m n) <-> (c < n)%nat /\ (i < m)%nat.
Proof.
  rewrite <- (in_camera_major (fun _ => m)). split; apply Permutation_in; [ apply Permutation_sym | ]; apply majors.
Qed.

(** ** The error of related poses *)
Section Related.
  Variables (h : rig_choices) (images images' : list (list (list (correspondence vec2)))) (o o' : list (nat * nat)).
  Variables (k k' : nat -> intrinsics).
  Hypothesis Hh : sensible_rig h.
  Hypothesis Ho : Permutation (map (was h) o') o.
  Hypothesis HP : forall c i, In (c, i) o' -> same_shot h images images' c i.
  Hypothesis HK : forall c i, In (c, i) o' -> k' c = resized_camera (rig_zoom h) (rig_shift h c) (k (was_camera h c)).
  Definition related (T T' : poses) : Prop := forall c i, In (c, i) o' ->
    T' c i = iso_mul (in_unit (rig_unit h) (T (was_camera h c) (was_image h c i))) (rig_target h).

  Lemma related_rigid T T' c i : related T T' -> In (c, i) o' ->
    (rigid (T' c i) <-> rigid (T (was_camera h c) (was_image h c i))).
  Proof.
    intros Q I. rewrite (Q c i I). destruct Hh as (_ & _ & _ & HG). split; intros H.
    - change (rigid (in_unit (rig_unit h) (T (was_camera h c) (was_image h c i)))).
      rewrite <- (iso_mul_id_r (in_unit _ _)), <- (iso_inv_r _ HG), <- iso_mul_assoc. apply rigid_mul; [ exact H | apply rigid_inv, HG ].
    - apply rigid_mul; [ apply in_unit_rigid, H | exact HG ].
  Qed.
  Lemma rig_front T T' : related T T' -> (rig_in_view (views images' o') T' <-> rig_in_view (views images o) T).
  Proof.
    intros Q. destruct Hh as (Hs & _ & _ & HG). split; intros V c i x Hx.
    - apply in_views in Hx as [Hi Hx]. apply (Permutation_in _ (Permutation_sym Ho)) in Hi.
      apply in_map_iff in Hi as ([c' i'] & E & Hi). unfold was in E. cbn [fst snd] in E. injection E as <- <-.
      pose proof (HP c' i' Hi) as S. assert (V' : forall y, In y (images_of images' c' i') -> rigid (T' c' i') /\ 0 < vz (iso_app (T' c' i') (in_target y))).
      { intros y Hy. apply (V c' i' y). apply in_views. split; assumption. }
      assert (exists y, In y (images_of images' c' i')) as [y Hy].
      { destruct S as (l & Pl & F). destruct (forall2_in_l _ _ _ _ F Hx) as (b & Ib & _). exists b. apply (Permutation_in _ Pl), Ib. }
      split; [ apply (related_rigid T T' c' i' Q Hi), (V' y Hy) | ].
      refine (proj1 (pose_front_same _ _ _ _ _ _ _ Hs HG S) _ x Hx). rewrite <- (Q c' i' Hi). intros z Hz. apply (V' z Hz).
    - apply in_views in Hx as [Hi Hx]. pose proof (HP c i Hi) as S.
      assert (Hw : In (was_camera h c, was_image h c i) o) by (apply (Permutation_in _ Ho); exact (in_map (was h) _ _ Hi)).
      assert (V' : forall y, In y (images_of images (was_camera h c) (was_image h c i)) ->
        rigid (T (was_camera h c) (was_image h c i)) /\ 0 < vz (iso_app (T (was_camera h c) (was_image h c i)) (in_target y))).
      { intros y Hy. apply (V _ _ y). apply in_views. split; assumption. }
      assert (exists y, In y (images_of images (was_camera h c) (was_image h c i))) as [y Hy].
      { destruct S as (l & Pl & F). apply (Permutation_in _ (Permutation_sym Pl)) in Hx.
        destruct (forall2_in_r _ _ _ _ F Hx) as (a & Ia & _). exists a. exact Ia. }
      split; [ apply (related_rigid T T' c i Q Hi), (V' y Hy) | ].
      rewrite (Q c i Hi). refine (proj2 (pose_front_same _ _ _ _ _ _ _ Hs HG S) _ x Hx). intros z Hz. apply (V' z Hz).
  Qed.
  Lemma sum_perm {A} (l l' : list A) f : Permutation l l' -> sum_over l f = sum_over l' f.
  Proof. induction 1; rewrite ?sum_cons; lra. Qed.
  Lemma rig_error_related T T' : related T T' -> rig_in_view (views images o) T ->
    rig_error k' (views images' o') T' = rig_zoom h * rig_zoom h * rig_error k (views images o) T.
  Proof.
    intros Q V. destruct Hh as (Hs & _ & _ & HG). rewrite !rig_by_picture, <- (sum_perm _ _ _ Ho), sum_map.
    transitivity (sum_over o' (fun ci => rig_zoom h * rig_zoom h *
      pose_error (k (was_camera h (fst ci))) (images_of images (was_camera h (fst ci)) (was_image h (fst ci) (snd ci)))
        (T (was_camera h (fst ci)) (was_image h (fst ci) (snd ci))))).
    - apply sum_eq. intros [c i] Hi. cbn [fst snd]. rewrite (Q c i Hi), (HK c i Hi). apply pose_error_same; try assumption; [ apply (HP c i Hi) | ].
      intros x Hx. apply (V (was_camera h c) (was_image h c i) x). apply in_views. split; [ | exact Hx ].
      apply (Permutation_in _ Ho). apply (in_map (was h)) in Hi. exact Hi.
    - unfold was. cbn [fst snd]. generalize o' as l. intros l. induction l as [|a l IH]; rewrite ?sum_cons, ?sum_nil; [ ring | rewrite IH; ring ].
  Qed.
  Lemma rig_count : List.length (views images' o') = List.length (views images o).
  Proof.
    apply INR_eq. assert (E : forall im ord, INR (List.length (views im ord)) = sum_over ord (fun ci => INR (List.length (images_of im (fst ci) (snd ci))))).
    { intros im ord. unfold views. induction ord as [|a l IH]; cbn [flat_map]; rewrite ?sum_cons; [ reflexivity | ].
      rewrite app_length, map_length, plus_INR. f_equal. exact IH. }
    rewrite !E, <- (sum_perm _ _ _ Ho), sum_map. apply sum_eq. intros [c i] Hi. f_equal. symmetry. apply (same_length _ _ _ (HP c i Hi)).
  Qed.
  Lemma best_related (F F' : poses -> Prop) T T' : (forall P', F' P' -> exists P, F P /\ related P P') ->
    F' T' -> related T T' -> best_of F k (views images o) T -> best_of F' k' (views images' o') T'.
  Proof.
    intros Back HF' Q (_ & V & B). split; [ exact HF' | split; [ apply (rig_front T T' Q), V | ] ].
    intros P' HP' V'. destruct (Back P' HP') as (P & FP & QP). pose proof (proj1 (rig_front P P' QP) V') as VP.
    rewrite (rig_error_related T T' Q V), (rig_error_related P P' QP VP). apply Rmult_le_compat_l; [ nra | ]. apply B; assumption.
  Qed.
  Lemma best_both (F F' : poses -> Prop) T T' : (forall P', F' P' -> exists P, F P /\ related P P') ->
    F' T' -> related T T' -> best_of F k (views images o) T ->
    rig_error k' (views images' o') T' / INR (2 * List.length (views images' o')) =
      rig_zoom h * rig_zoom h * (rig_error k (views images o) T / INR (2 * List.length (views images o))) /\
    best_of F' k' (views images' o') T'.
  Proof.
    intros Back HF' Q B. split; [ | apply (best_related F F' T T' Back HF' Q B) ].
    rewrite rig_count, (rig_error_related T T' Q (proj1 (proj2 B))). unfold Rdiv. ring.
  Qed.
End Related.
Lemma best_same (F : poses -> Prop) k vs T T' : best_of F k vs T -> best_of F k vs T' -> rig_error k vs T = rig_error k vs T'.
Proof. intros (F1 & V1 & B1) (F2 & V2 & B2). apply Rle_antisym; [ apply B1 | apply B2 ]; assumption. Qed.

(** ** Poses in the two descriptions *)
Lemma moved_camera_rigid h C : sensible_rig h -> rigid C -> rigid (moved_camera h C).
Proof. intros (_ & HB & _ & _) HC. apply rigid_mul; [ exact HB | apply in_unit_rigid, HC ]. Qed.
Lemma moved_target_rigid h Z : sensible_rig h -> rigid Z -> rigid (moved_target h Z).
Proof.
  intros (_ & _ & HE & HG) HZ. apply rigid_mul; [ apply rigid_mul; [ apply rigid_inv, HE | apply in_unit_rigid, HZ ] | exact HG ].
Qed.
Lemma placed_target_rigid h T : sensible_rig h -> rigid T -> rigid (placed_target h T).
Proof.
  intros (_ & HB & _ & HG) HT. apply rigid_mul; [ apply rigid_mul; [ exact HB | apply in_unit_rigid, HT ] | exact HG ].
Qed.
Definition unmoved_camera h C := in_unit (/ rig_unit h) (iso_mul (iso_inv (old_base h)) C).
Definition unmoved_target h Z := in_unit (/ rig_unit h) (iso_mul (iso_mul (wrist_frame h) Z) (iso_inv (rig_target h))).
Definition unplaced_target h T := in_unit (/ rig_unit h) (iso_mul (iso_mul (iso_inv (old_base h)) T) (iso_inv (rig_target h))).
Lemma unmoved_camera_rigid h C : sensible_rig h -> rigid C -> rigid (unmoved_camera h C).
Proof. intros (_ & HB & _ & _) HC. apply in_unit_rigid, rigid_mul; [ apply rigid_inv, HB | exact HC ]. Qed.
Lemma unmoved_target_rigid h Z : sensible_rig h -> rigid Z -> rigid (unmoved_target h Z).
Proof. intros (_ & _ & HE & HG) HZ. apply in_unit_rigid, rigid_mul; [ apply rigid_mul; assumption | apply rigid_inv, HG ]. Qed.
Lemma unplaced_target_rigid h T : sensible_rig h -> rigid T -> rigid (unplaced_target h T).
Proof.
  intros (_ & HB & _ & HG) HT. apply in_unit_rigid, rigid_mul; [ apply rigid_mul; [ apply rigid_inv, HB | exact HT ] | apply rigid_inv, HG ].
Qed.
Lemma moved_unmoved_camera h C : sensible_rig h -> moved_camera h (unmoved_camera h C) = C.
Proof. intros (Hs & HB & _ & _). unfold moved_camera, unmoved_camera. rewrite in_unit_back by lra. apply inv_cancel, HB. Qed.
Lemma moved_unmoved_target h Z : sensible_rig h -> moved_target h (unmoved_target h Z) = Z.
Proof.
  intros (Hs & _ & HE & HG). unfold moved_target, unmoved_target. rewrite in_unit_back by lra.
  rewrite !iso_mul_assoc, iso_inv_l, iso_mul_id_r by exact HG. apply inv_cancel', HE.
Qed.
Lemma placed_unplaced h T : sensible_rig h -> placed_target h (unplaced_target h T) = T.
Proof.
  intros (Hs & HB & _ & HG). unfold placed_target, unplaced_target. rewrite in_unit_back by lra.
  rewrite !iso_mul_assoc, iso_inv_l, iso_mul_id_r by exact HG. apply inv_cancel, HB.
Qed.
Lemma seen_placed h C T : sensible_rig h ->
  iso_mul (iso_inv (moved_camera h C)) (placed_target h T) = iso_mul (in_unit (rig_unit h) (iso_mul (iso_inv C) T)) (rig_target h).
Proof.
  intros (_ & HB & _ & _). unfold moved_camera, placed_target. rewrite (iso_inv_mul (old_base h)) by exact HB.
  rewrite !iso_mul_assoc, inv_cancel' by exact HB. rewrite in_unit_mul, in_unit_inv, !iso_mul_assoc. reflexivity.
Qed.
Lemma moved_placed h W Z : sensible_rig h -> iso_mul (moved_wrist h W) (moved_target h Z) = placed_target h (iso_mul W Z).
Proof.
  intros (_ & _ & HE & _). unfold moved_wrist, moved_target, placed_target. rewrite !iso_mul_assoc, inv_cancel by exact HE.
  rewrite in_unit_mul, !iso_mul_assoc. reflexivity.
Qed.
Lemma seen_moved h C W Z : sensible_rig h ->
  iso_mul (iso_inv (moved_camera h C)) (iso_mul (moved_wrist h W) (moved_target h Z)) =
  iso_mul (in_unit (rig_unit h) (iso_mul (iso_inv C) (iso_mul W Z))) (rig_target h).
Proof. intros Hh. rewrite moved_placed, seen_placed by exact Hh. reflexivity. Qed.

(** ** Static cameras *)
Lemma static_restated p r p' h :
  (forall T, In T (sr_base_to_camera r) -> rigid T) -> rigid (sr_wrist_to_target r) ->
  sensible_rig h -> same_static h p p' ->
  best_of (cameras_and_wrist (List.length (sp_base_to_camera_guess p)) (static_wrist p)) (camera_of (sp_intr p))
          (static_views p) (static_poses p r) ->
  rig_error (camera_of (sp_intr p')) (static_views p') (static_anew h p' r) / INR (2 * List.length (static_views p')) =
    rig_zoom h * rig_zoom h * (rig_error (camera_of (sp_intr p)) (static_views p) (static_poses p r) / INR (2 * List.length (static_views p))) /\
  best_of (cameras_and_wrist (List.length (sp_base_to_camera_guess p')) (static_wrist p')) (camera_of (sp_intr p'))
          (static_views p') (static_anew h p' r).
Proof.
  intros RC RZ Hh (En & Rn & S) B.
  destruct (reorders_inv _ _ Rn) as [g Hg].
  assert (IN : forall c i, In (c, i) (camera_major (fun c => List.length (nth c (sp_wrist_poses p') [])) (List.length (sp_base_to_camera_guess p'))) ->
    (c < List.length (sp_base_to_camera_guess p))%nat /\ (i < List.length (nth (was_camera h c) (sp_wrist_poses p) []))%nat).
  { intros c i Hi. apply in_camera_major in Hi as [Hc Hi]. rewrite En in Hc. destruct (S c Hc) as (_ & L & _). rewrite L in Hi. auto. }
  unfold static_views in *.
  refine (best_both h _ _ _ _ _ _ Hh _ _ _ _ _ _ _ _ _ _ B).
  - rewrite En. apply camera_major_reordered; [ exact Rn | ]. intros c Hc. destruct (S c Hc) as (_ & L & Q & _). auto.
  - intros c i Hi. apply IN in Hi as [Hc Hi]. apply (proj2 (proj2 (proj2 (S c Hc))) i Hi).
  - intros c i Hi. apply IN in Hi as [Hc Hi]. apply (proj1 (S c Hc)).
  - intros P' (C' & Z' & RC1 & RZ1 & EP). exists (fun c i => iso_mul (iso_inv (unmoved_camera h (C' (g c)))) (iso_mul (static_wrist p c i) (unmoved_target h Z'))).
    split.
    + exists (fun c => unmoved_camera h (C' (g c))), (unmoved_target h Z').
      split; [ intros c; apply unmoved_camera_rigid; auto | split; [ apply unmoved_target_rigid; auto | reflexivity ] ].
    + intros c i Hi. apply IN in Hi as [Hc Hi]. rewrite EP by lia. rewrite (proj1 (proj2 (proj2 (proj2 (S c Hc))) i Hi)).
      rewrite (Hg c Hc), <- seen_moved, moved_unmoved_camera, moved_unmoved_target by exact Hh. reflexivity.
  - exists (fun c => moved_camera h (nth (was_camera h c) (sr_base_to_camera r) iso_id)), (moved_target h (sr_wrist_to_target r)).
    split; [ intros c; apply moved_camera_rigid; [ exact Hh | apply nth_rigid', RC ] | split; [ apply moved_target_rigid; assumption | reflexivity ] ].
  - intros c i Hi. apply IN in Hi as [Hc Hi]. unfold static_anew, static_poses.
    rewrite (proj1 (proj2 (proj2 (proj2 (S c Hc))) i Hi)). apply seen_moved, Hh.
Qed.
Lemma static_choices u solve cov p r u' solve' cov' p' r' h :
  honest_blocks solve -> honest_blocks solve' ->
  optimizeStatic u solve cov p = Ok r -> optimizeStatic u' solve' cov' p' = Ok r' ->
  static_sizes p -> plain_wrists p -> static_sizes p' -> plain_wrists p' ->
  (forall T, In T (sr_base_to_camera r) -> rigid T) -> rigid (sr_wrist_to_target r) ->
  (forall T, In T (sr_base_to_camera r') -> rigid T) ->
  sensible_rig h -> same_static h p p' ->
  best_of (cameras_and_wrist (List.length (sp_base_to_camera_guess p)) (static_wrist p)) (camera_of (sp_intr p))
          (static_views p) (static_poses p r) ->
  best_of (cameras_and_wrist (List.length (sp_base_to_camera_guess p')) (static_wrist p')) (camera_of (sp_intr p'))
          (static_views p') (static_poses p' r') ->
  sr_final_cost_per_obs r' = rig_zoom h * rig_zoom h * sr_final_cost_per_obs r /\
  best_of (cameras_and_wrist (List.length (sp_base_to_camera_guess p')) (static_wrist p')) (camera_of (sp_intr p'))
          (static_views p') (static_anew h p' r).
Proof.
  intros Ho Ho' E E' Sz PW Sz' PW' RC RZ RC' Hh Sm B B'.
  rewrite (static_reported _ _ _ _ _ Ho E Sz PW RC (proj1 (proj2 B))), (static_reported _ _ _ _ _ Ho' E' Sz' PW' RC' (proj1 (proj2 B'))).
  destruct (static_restated p r p' h RC RZ Hh Sm B) as [Q BA]. split; [ | exact BA ]. rewrite <- Q. f_equal. apply (best_same _ _ _ _ _ B' BA).
Qed.

(** ** Cameras moved as a whole *)
Lemma wrist_carried solve p r : optimizeWrist solve p = Ok r ->
  wrist_sizes p -> (forall T, In T (wp_wrist_poses p) -> plain_pose T) ->
  (forall T, In T (wp_base_to_camera_guess p) -> plain_pose T) ->
  (forall T, In T (wr_base_to_camera r) -> rigid T) ->
  exists K, rigid K /\ forall c, (c < List.length (wp_base_to_camera_guess p))%nat ->
    nth c (wr_base_to_camera r) iso_id = iso_mul K (nth c (wp_base_to_camera_guess p) iso_id).
Proof.
  intros E Sz PW PC RC. set (n := List.length (wp_base_to_camera_guess p)).
  destruct (wrist_right p Sz PW PC) as (blocks & Ev & Res).
  destruct (Res solve) as (m & s & r' & Es & Er & _ & Hz & Hcam & _ & Hf). rewrite Er in E. injection E as ->.
  set (K := poseCalToEigen (read_pose m key_correction)) in *.
  assert (FD : forall c, (c < n)%nat -> nth c (wr_base_to_camera r) iso_id = iso_mul (iso_inv K) (nth c (wp_base_to_camera_guess p) iso_id)).
  { intros c Hc. rewrite Hcam.
    rewrite (nth_indep _ iso_id (iso_mul (iso_inv K) iso_id)) by (rewrite map_length; exact Hc). apply map_nth. }
  assert (Hl : List.length (wr_base_to_camera r) = n) by (rewrite Hcam, map_length; reflexivity).
  destruct n as [|n'] eqn:En.
  { exists iso_id. split; [ apply rigid_id | intros c Hc; lia ]. }
  exists (iso_inv K). split; [ | exact FD ].
  assert (H0 : (0 < S n')%nat) by lia.
  assert (R : rigid (nth 0 (wr_base_to_camera r) iso_id)) by (apply RC, nth_In; lia). rewrite FD in R by exact H0.
  pose proof (rigid_mul _ _ R (rigid_inv _ (nth_rigid _ PC 0%nat))) as R'.
  rewrite iso_mul_assoc, iso_inv_r, iso_mul_id_r in R' by apply (nth_rigid _ PC). exact R'.
Qed.
Definition moved_motion h K := iso_mul (iso_mul (old_base h) (in_unit (rig_unit h) K)) (iso_inv (old_base h)).
Definition unmoved_motion h K := in_unit (/ rig_unit h) (iso_mul (iso_mul (iso_inv (old_base h)) K) (old_base h)).
Lemma moved_motion_camera h K C : sensible_rig h -> moved_camera h (iso_mul K C) = iso_mul (moved_motion h K) (moved_camera h C).
Proof.
  intros (_ & HB & _). unfold moved_camera, moved_motion. rewrite !iso_mul_assoc, inv_cancel' by exact HB. rewrite in_unit_mul. reflexivity.
Qed.
Lemma moved_unmoved_motion h K : sensible_rig h -> moved_motion h (unmoved_motion h K) = K.
Proof.
  intros (Hs & HB & _). unfold moved_motion, unmoved_motion. rewrite in_unit_back by lra.
  rewrite !iso_mul_assoc, iso_inv_r, iso_mul_id_r by exact HB. apply inv_cancel, HB.
Qed.
Lemma moved_motion_rigid h K : sensible_rig h -> rigid K -> rigid (moved_motion h K).
Proof. intros (_ & HB & _) HK. apply rigid_mul; [ apply rigid_mul; [ exact HB | apply in_unit_rigid, HK ] | apply rigid_inv, HB ]. Qed.
Lemma unmoved_motion_rigid h K : sensible_rig h -> rigid K -> rigid (unmoved_motion h K).
Proof. intros (_ & HB & _) HK. apply in_unit_rigid, rigid_mul; [ apply rigid_mul; [ apply rigid_inv, HB | exact HK ] | exact HB ]. Qed.

Lemma wrist_restated p r p' h :
  (exists K, rigid K /\ forall c, (c < List.length (wp_base_to_camera_guess p))%nat ->
    nth c (wr_base_to_camera r) iso_id = iso_mul K (nth c (wp_base_to_camera_guess p) iso_id)) -> rigid (wr_wrist_to_target r) ->
  sensible_rig h -> same_wrist h p p' ->
  best_of (rig_and_wrist (List.length (wp_base_to_camera_guess p)) (fun c => nth c (wp_base_to_camera_guess p) iso_id)
             (fun i => nth i (wp_wrist_poses p) iso_id))
          (camera_of (wp_intr p)) (wrist_views p) (wrist_poses p r) ->
  rig_error (camera_of (wp_intr p')) (wrist_views p') (wrist_anew h p' r) / INR (2 * List.length (wrist_views p')) =
    rig_zoom h * rig_zoom h * (rig_error (camera_of (wp_intr p)) (wrist_views p) (wrist_poses p r) / INR (2 * List.length (wrist_views p))) /\
  best_of (rig_and_wrist (List.length (wp_base_to_camera_guess p')) (fun c => nth c (wp_base_to_camera_guess p') iso_id)
             (fun i => nth i (wp_wrist_poses p') iso_id))
          (camera_of (wp_intr p')) (wrist_views p') (wrist_anew h p' r).
Proof.
  intros (K & RK & HK) RZ Hh (En & Em & Rn & Sa & Rm & SW & S) B.
  assert (IN : forall c i, In (c, i) (camera_major (fun _ => List.length (wp_wrist_poses p')) (List.length (wp_base_to_camera_guess p'))) ->
    (c < List.length (wp_base_to_camera_guess p))%nat /\ (i < List.length (wp_wrist_poses p))%nat).
  { intros c i Hi. apply in_camera_major in Hi. rewrite En, Em in Hi. exact Hi. }
  unfold wrist_views in *.
  refine (best_both h _ _ _ _ _ _ Hh _ _ _ _ _ _ _ _ _ _ B).
  - rewrite En, Em. apply camera_major_reordered; [ exact Rn | ]. intros c Hc. split; [ reflexivity | ]. unfold reorders.
    rewrite (map_ext _ (was_image h 0)) by (intros i; apply Sa). exact Rm.
  - intros c i Hi. apply IN in Hi as [Hc Hi]. apply (proj2 (proj2 (S c Hc)) i Hi).
  - intros c i Hi. apply IN in Hi as [Hc Hi]. apply (proj1 (S c Hc)).
  - intros P' (K' & Z' & RK1 & RZ1 & EP).
    exists (fun c i => iso_mul (iso_inv (iso_mul (unmoved_motion h K') (nth c (wp_base_to_camera_guess p) iso_id)))
                               (iso_mul (nth i (wp_wrist_poses p) iso_id) (unmoved_target h Z'))).
    split.
    + exists (unmoved_motion h K'), (unmoved_target h Z').
      split; [ apply unmoved_motion_rigid; auto | split; [ apply unmoved_target_rigid; auto | reflexivity ] ].
    + intros c i Hi. apply IN in Hi as [Hc Hi]. rewrite EP by lia. rewrite (SW i Hi), (proj1 (proj2 (S c Hc))).
      rewrite <- seen_moved, moved_motion_camera, moved_unmoved_motion, moved_unmoved_target, (Sa c i) by exact Hh. reflexivity.
  - exists (moved_motion h K), (moved_target h (wr_wrist_to_target r)).
    split; [ apply moved_motion_rigid; assumption | split; [ apply moved_target_rigid; assumption | ] ].
    intros c i Hc. rewrite En in Hc. unfold wrist_anew. rewrite (proj1 (proj2 (S c Hc))), HK by (apply (reorders_lt _ _ Rn), Hc).
    rewrite moved_motion_camera by exact Hh. reflexivity.
  - intros c i Hi. apply IN in Hi as [Hc Hi]. unfold wrist_anew, wrist_poses. rewrite (SW i Hi), (Sa c i). apply seen_moved, Hh.
Qed.
Lemma wrist_choices solve p r solve' p' r' h :
  honest_blocks solve -> honest_blocks solve' ->
  optimizeWrist solve p = Ok r -> optimizeWrist solve' p' = Ok r' ->
  wrist_sizes p -> (forall T, In T (wp_wrist_poses p) -> plain_pose T) -> (forall T, In T (wp_base_to_camera_guess p) -> plain_pose T) ->
  wrist_sizes p' -> (forall T, In T (wp_wrist_poses p') -> plain_pose T) -> (forall T, In T (wp_base_to_camera_guess p') -> plain_pose T) ->
  (forall T, In T (wr_base_to_camera r) -> rigid T) -> rigid (wr_wrist_to_target r) ->
  (forall T, In T (wr_base_to_camera r') -> rigid T) ->
  sensible_rig h -> same_wrist h p p' ->
  best_of (rig_and_wrist (List.length (wp_base_to_camera_guess p)) (fun c => nth c (wp_base_to_camera_guess p) iso_id)
             (fun i => nth i (wp_wrist_poses p) iso_id))
          (camera_of (wp_intr p)) (wrist_views p) (wrist_poses p r) ->
  best_of (rig_and_wrist (List.length (wp_base_to_camera_guess p')) (fun c => nth c (wp_base_to_camera_guess p') iso_id)
             (fun i => nth i (wp_wrist_poses p') iso_id))
          (camera_of (wp_intr p')) (wrist_views p') (wrist_poses p' r') ->
  wr_final_cost_per_obs r' = rig_zoom h * rig_zoom h * wr_final_cost_per_obs r /\
  best_of (rig_and_wrist (List.length (wp_base_to_camera_guess p')) (fun c => nth c (wp_base_to_camera_guess p') iso_id)
             (fun i => nth i (wp_wrist_poses p') iso_id))
          (camera_of (wp_intr p')) (wrist_views p') (wrist_anew h p' r).
Proof.
  intros Ho Ho' E E' Sz PW PC Sz' PW' PC' RC RZ RC' Hh Sm B B'.
  rewrite (proj1 (wrist_reported _ _ _ Ho E Sz PW PC RC (proj1 (proj2 B)))), (proj1 (wrist_reported _ _ _ Ho' E' Sz' PW' PC' RC' (proj1 (proj2 B')))).
  destruct (wrist_restated p r p' h (wrist_carried _ _ _ E Sz PW PC RC) RZ Hh Sm B) as [Q BA]. split; [ | exact BA ]. rewrite <- Q. f_equal. apply (best_same _ _ _ _ _ B' BA).
Qed.

(** ** Cameras and targets *)
Lemma only_restated p r p' h :
  (forall T, In T (or_base_to_camera r) -> rigid T) -> (forall T, In T (or_base_to_target r) -> rigid T) ->
  sensible_rig h -> same_only h p p' ->
  best_of (cameras_and_targets (List.length (op_base_to_camera_guess p))) (camera_of (op_intr p)) (only_views p) (only_poses r) ->
  rig_error (camera_of (op_intr p')) (only_views p') (only_anew h r) / INR (2 * List.length (only_views p')) =
    rig_zoom h * rig_zoom h * (rig_error (camera_of (op_intr p)) (only_views p) (only_poses r) / INR (2 * List.length (only_views p))) /\
  best_of (cameras_and_targets (List.length (op_base_to_camera_guess p'))) (camera_of (op_intr p')) (only_views p') (only_anew h r).
Proof.
  intros RC RT Hh (En & Em & Rn & Sa & Rm & S) B.
  destruct (reorders_inv _ _ Rn) as [g Hg]. destruct (reorders_inv _ _ Rm) as [f Hf].
  assert (IN : forall c i, In (c, i) (image_major (List.length (op_base_to_target_guess p')) (List.length (op_base_to_camera_guess p'))) ->
    (c < List.length (op_base_to_camera_guess p))%nat /\ (i < List.length (op_base_to_target_guess p))%nat).
  { intros c i Hi. apply in_image_major in Hi. rewrite En, Em in Hi. exact Hi. }
  unfold only_views in *.
  refine (best_both h _ _ _ _ _ _ Hh _ _ _ _ _ _ _ _ _ _ B).
  - rewrite En, Em. apply image_major_reordered; assumption.
  - intros c i Hi. apply IN in Hi as [Hc Hi]. apply (proj2 (S c Hc) i Hi).
  - intros c i Hi. apply IN in Hi as [Hc Hi]. apply (proj1 (S c Hc)).
  - intros P' (C' & B1 & RC1 & RB1 & EP).
    exists (fun c i => iso_mul (iso_inv (unmoved_camera h (C' (g c)))) (unplaced_target h (B1 (f i)))).
    split.
    + exists (fun c => unmoved_camera h (C' (g c))), (fun i => unplaced_target h (B1 (f i))).
      split; [ intros c; apply unmoved_camera_rigid; auto | split; [ intros i; apply unplaced_target_rigid; auto | reflexivity ] ].
    + intros c i Hi. apply IN in Hi as [Hc Hi]. rewrite EP by lia.
      rewrite (Sa c i), (Hg c Hc), (Hf i Hi), <- seen_placed, moved_unmoved_camera, placed_unplaced by exact Hh. reflexivity.
  - exists (fun c => moved_camera h (nth (was_camera h c) (or_base_to_camera r) iso_id)),
           (fun i => placed_target h (nth (was_image h 0 i) (or_base_to_target r) iso_id)).
    split; [ intros c; apply moved_camera_rigid; [ exact Hh | apply nth_rigid', RC ] | split ].
    + intros i. apply placed_target_rigid; [ exact Hh | apply nth_rigid', RT ].
    + reflexivity.
  - intros c i Hi. apply IN in Hi as [Hc Hi]. unfold only_anew, only_poses. rewrite (Sa c i). apply seen_placed, Hh.
Qed.
Lemma only_choices solve p r solve' p' r' h :
  honest_blocks solve -> leaves_others solve -> honest_blocks solve' -> leaves_others solve' ->
  optimizeOnly solve p = Ok r -> optimizeOnly solve' p' = Ok r' ->
  only_sizes p -> only_sizes p' ->
  (op_fix_first_camera p = true -> forall T, nth_error (op_base_to_camera_guess p) 0 = Some T -> plain_pose T) ->
  (op_fix_first_camera p' = true -> forall T, nth_error (op_base_to_camera_guess p') 0 = Some T -> plain_pose T) ->
  (forall T, In T (or_base_to_camera r) -> rigid T) -> (forall T, In T (or_base_to_target r) -> rigid T) ->
  (forall T, In T (or_base_to_camera r') -> rigid T) ->
  sensible_rig h -> same_only h p p' ->
  best_of (cameras_and_targets (List.length (op_base_to_camera_guess p))) (camera_of (op_intr p)) (only_views p) (only_poses r) ->
  best_of (cameras_and_targets (List.length (op_base_to_camera_guess p'))) (camera_of (op_intr p')) (only_views p') (only_poses r') ->
  or_final_cost_per_obs r' = rig_zoom h * rig_zoom h * or_final_cost_per_obs r /\
  best_of (cameras_and_targets (List.length (op_base_to_camera_guess p'))) (camera_of (op_intr p')) (only_views p') (only_anew h r).
Proof.
  intros Ho Lo Ho' Lo' E E' Sz Sz' PF PF' RC RT RC' Hh Sm B B'.
  rewrite (only_reported _ _ _ Ho Lo E Sz PF RC (proj1 (proj2 B))), (only_reported _ _ _ Ho' Lo' E' Sz' PF' RC' (proj1 (proj2 B'))).
  destruct (only_restated p r p' h RC RT Hh Sm B) as [Q BA]. split; [ | exact BA ]. rewrite <- Q. f_equal. apply (best_same _ _ _ _ _ B' BA).
Qed.

(** ** A target at rest *)
Lemma nth_singles (l : list (list (correspondence vec2))) c : nth 0 (nth c (map (fun cs => [cs]) l) []) [] = nth c l [].
Proof.
  destruct (Nat.lt_ge_cases c (List.length l)) as [L|L].
  - rewrite (nth_indep _ _ ((fun cs => [cs]) [])) by (rewrite map_length; exact L). rewrite (map_nth (fun cs => [cs])). reflexivity.
  - rewrite (nth_overflow (map _ _)) by (rewrite map_length; exact L). rewrite (nth_overflow l) by exact L. reflexivity.
Qed.
Lemma single_views_as p : single_views p =
  views (map (fun cs => [cs]) (mp_image_observations p)) (camera_major (fun _ => 1%nat) (List.length (mp_base_to_camera p))).
Proof.
  unfold single_views, mpnp_views, views, camera_major. generalize (seq 0 (List.length (mp_base_to_camera p))). intros l.
  induction l as [|c l IH]; [ reflexivity | ].
  cbn [flat_map seq map app fst snd]. rewrite map_app, IH, map_map, nth_singles. reflexivity.
Qed.
Lemma mpnp_restated p r p' h :
  rigid (mr_base_to_target r) ->
  sensible_rig h -> same_mpnp h p p' ->
  best_of (known_cameras (List.length (mp_base_to_camera p)) (fun c => nth c (mp_base_to_camera p) iso_id)) (camera_of (mp_intr p))
          (single_views p) (mpnp_poses p r) ->
  rig_error (camera_of (mp_intr p')) (single_views p') (mpnp_anew h p' r) / INR (2 * List.length (single_views p')) =
    rig_zoom h * rig_zoom h * (rig_error (camera_of (mp_intr p)) (single_views p) (mpnp_poses p r) / INR (2 * List.length (single_views p))) /\
  best_of (known_cameras (List.length (mp_base_to_camera p')) (fun c => nth c (mp_base_to_camera p') iso_id)) (camera_of (mp_intr p'))
          (single_views p') (mpnp_anew h p' r).
Proof.
  intros RT Hh (En & Rn & S) B.
  set (h' := RigChoices (rig_unit h) (old_base h) (wrist_frame h) (rig_target h) (rig_zoom h) (rig_shift h) (was_camera h) (fun _ i => i)).
  assert (Hh' : sensible_rig h') by exact Hh.
  assert (IN : forall c i, In (c, i) (camera_major (fun _ => 1%nat) (List.length (mp_base_to_camera p'))) ->
    (c < List.length (mp_base_to_camera p))%nat /\ i = 0%nat).
  { intros c i Hi. apply in_camera_major in Hi. rewrite En in Hi. destruct Hi. split; [ assumption | lia ]. }
  rewrite !single_views_as in *. change (rig_zoom h) with (rig_zoom h').
  refine (best_both h' _ _ _ _ _ _ Hh' _ _ _ _ _ _ _ _ _ _ B).
  - rewrite En. apply camera_major_reordered; [ exact Rn | ]. intros c Hc. split; [ reflexivity | ]. unfold reorders. cbn. constructor. constructor.
  - intros c i Hi. apply IN in Hi as [Hc ->]. unfold same_shot, images_of. cbn [h' was_image was_camera]. rewrite !nth_singles. apply (S c Hc).
  - intros c i Hi. apply IN in Hi as [Hc _]. apply (proj1 (S c Hc)).
  - intros P' (B1 & RB1 & EP). exists (fun c i => iso_mul (iso_inv (nth c (mp_base_to_camera p) iso_id)) (unplaced_target h B1)).
    split.
    + exists (unplaced_target h B1). split; [ apply unplaced_target_rigid; auto | reflexivity ].
    + intros c i Hi. apply IN in Hi as [Hc ->]. rewrite EP by lia. rewrite (proj1 (proj2 (S c Hc))). cbn [h' was_camera rig_unit rig_target].
      rewrite <- seen_placed, placed_unplaced by exact Hh. reflexivity.
  - exists (placed_target h (mr_base_to_target r)). split; [ apply placed_target_rigid; assumption | reflexivity ].
  - intros c i Hi. apply IN in Hi as [Hc ->]. unfold mpnp_anew, mpnp_poses. rewrite (proj1 (proj2 (S c Hc))). apply (seen_placed h), Hh.
Qed.
Lemma mpnp_choices solve p r solve' p' r' h :
  honest_blocks solve -> honest_blocks solve' -> optimizeMpnp solve p = Ok r -> optimizeMpnp solve' p' = Ok r' ->
  mpnp_sizes p -> (forall T, In T (mp_base_to_camera p) -> plain_pose T) ->
  mpnp_sizes p' -> (forall T, In T (mp_base_to_camera p') -> plain_pose T) ->
  rigid (mr_base_to_target r) ->
  sensible_rig h -> same_mpnp h p p' ->
  best_of (known_cameras (List.length (mp_base_to_camera p)) (fun c => nth c (mp_base_to_camera p) iso_id)) (camera_of (mp_intr p))
          (single_views p) (mpnp_poses p r) ->
  best_of (known_cameras (List.length (mp_base_to_camera p')) (fun c => nth c (mp_base_to_camera p') iso_id)) (camera_of (mp_intr p'))
          (single_views p') (mpnp_poses p' r') ->
  mr_final_cost_per_obs r' = rig_zoom h * rig_zoom h * mr_final_cost_per_obs r /\
  best_of (known_cameras (List.length (mp_base_to_camera p')) (fun c => nth c (mp_base_to_camera p') iso_id)) (camera_of (mp_intr p'))
          (single_views p') (mpnp_anew h p' r).
Proof.
  intros Ho Ho' E E' Sz PC Sz' PC' RT Hh Sm B B'.
  rewrite (mpnp_reported _ _ _ Ho E Sz PC (proj1 (proj2 B))), (mpnp_reported _ _ _ Ho' E' Sz' PC' (proj1 (proj2 B'))).
  destruct (mpnp_restated p r p' h RT Hh Sm B) as [Q BA]. split; [ | exact BA ]. rewrite <- Q. f_equal. apply (best_same _ _ _ _ _ B' BA).
Qed.
