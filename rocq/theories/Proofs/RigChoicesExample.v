(** Concrete data for C108: two cameras and three wrist poses, described anew with the cameras swapped, the images in
    reverse order, in half units, other frames, and pictures of half the size. *)
From Coq Require Import Reals Arith String List Permutation Lra Lia.
From Verif.Base Require Import Geom Outcome.
From Verif.Model Require Import Pose Covariance Solver HandEye Pnp BlockSolver MultiCamera.
From Verif.Spec Require Import CovarianceSpec Frames PinHole OracleSpec PnpSpec MultiSpec UniqueSpec SameDataSpec ToolsAgreeSpec RigChoicesSpec.
From Verif.Proofs Require Import GeomLemmas CovarianceProofs HandEyeProofs PnpProofs MultiCameraProofs UniqueProofs UniqueMulti ProjectionProofs
  UniqueExamples UniqueMultiExamples SameDataProofs SameDataExample ToolsAgreeProofs ToolsAgreeExample RigChoicesProofs.
Import ListNotations.
Local Open Scope R_scope.

Definition rc_camera (c : nat) : iso := iso_trans (V3 (INR c) 0 (-5)).
Definition rc_view (c : nat) (W : iso) : iso := iso_mul (iso_inv (rc_camera c)) (iso_mul W iso_id).
Definition rc_shot (c : nat) (W : iso) : list (correspondence vec2) := ex_image2 ex_k (rc_view c W).
Definition rc_images : list (list (list (correspondence vec2))) := map (fun c => map (rc_shot c) ex_mounts) [0; 1]%nat.

Definition rc_swap (c : nat) : nat := match c with 0%nat => 1%nat | _ => 0%nat end.
Definition rc_back (i : nat) : nat := match i with 0%nat => 2%nat | 1%nat => 1%nat | _ => 0%nat end.
Definition rc_choices : rig_choices :=
  RigChoices 2 (iso_trans (V3 7 8 9)) (iso_trans (V3 1 0 0)) (iso_trans (V3 0 (1 / 2) 0))
    (1 / 2) (fun c => V2 (INR c) 20) rc_swap (fun _ => rc_back).
Lemma rc_sensible : sensible_rig rc_choices.
Proof. split; [ cbn; lra | split; [ | split ]; apply rigid_trans ]. Qed.
Lemma rc_swaps : reorders (was_camera rc_choices) 2.
Proof. unfold reorders. cbn. constructor. Qed.
Lemma rc_backs c : reorders (was_image rc_choices c) 3.
Proof.
  unfold reorders. cbn. apply (perm_trans (l' := [1; 2; 0]%nat)); [ constructor | ].
  apply (perm_trans (l' := [1; 0; 2]%nat)); constructor; constructor.
Qed.
(** A picture described anew. *)
Definition rc_restate (c : nat) (cs : list (correspondence vec2)) : list (correspondence vec2) :=
  rev (map (fun x => Corr (resized (1 / 2) (rig_shift rc_choices c) (in_image x))
                          (iso_app (iso_inv (rig_target rc_choices)) (vscale 2 (in_target x)))) cs).
Lemma rc_restate_same c cs :
  same_picture (rig_unit rc_choices) (rig_target rc_choices) (rig_zoom rc_choices) (rig_shift rc_choices c) cs (rc_restate c cs).
Proof.
  eexists. split; [ apply Permutation_rev | ]. induction cs as [|x cs IH]; cbn [map]; constructor; [ split; reflexivity | exact IH ].
Qed.
Definition rc_images' : list (list (list (correspondence vec2))) :=
  map (fun c => map (fun i => rc_restate c (rc_shot (rc_swap c) (nth (rc_back i) ex_mounts iso_id))) [0; 1; 2]%nat) [0; 1]%nat.
Definition rc_wrists' : list iso := map (fun i => moved_wrist rc_choices (nth (rc_back i) ex_mounts iso_id)) [0; 1; 2]%nat.
Definition rc_cameras' : list iso := map (fun c => moved_camera rc_choices (rc_camera (rc_swap c))) [0; 1]%nat.
Definition rc_intr' : list intrinsics := map (fun c => resized_camera (1 / 2) (rig_shift rc_choices c) ex_k) [0; 1]%nat.

Lemma rc_same_shot c i : (c < 2)%nat -> (i < 3)%nat -> same_shot rc_choices rc_images rc_images' c i.
Proof.
  intros Hc Hi. unfold same_shot. destruct c as [|[|c]]; [ | | lia ]; (destruct i as [|[|[|i]]]; [ | | | lia ]); apply rc_restate_same.
Qed.
Lemma rc_same_camera c : (c < 2)%nat -> same_camera rc_choices [ex_k; ex_k] rc_intr' c.
Proof. intros Hc. destruct c as [|[|c]]; [ | | lia ]; reflexivity. Qed.
Lemma rc_camera_plain c : plain_pose (rc_camera c).
Proof. apply plain_id_tr. Qed.
Lemma rc_cameras_plain T : In T [rc_camera 0; rc_camera 1] -> plain_pose T.
Proof. intros [<-|[<-|[]]]; apply rc_camera_plain. Qed.
Lemma lin_moved_camera C : lin (moved_camera rc_choices C) = lin C.
Proof. cbn. rewrite mmul_I_l. reflexivity. Qed.
Lemma lin_moved_wrist W : lin (moved_wrist rc_choices W) = lin W.
Proof. cbn. rewrite mmul_I_l, mmul_I_r. reflexivity. Qed.
Lemma lin_moved_target Z : lin (moved_target rc_choices Z) = lin Z.
Proof. cbn. rewrite mT_I, mmul_I_l, mmul_I_r. reflexivity. Qed.
Lemma lin_placed_target T : lin (placed_target rc_choices T) = lin T.
Proof. cbn. rewrite mmul_I_l, mmul_I_r. reflexivity. Qed.
Lemma rc_cameras'_plain T : In T rc_cameras' -> plain_pose T.
Proof. intros H. apply in_map_iff in H as (c & <- & _). apply (plain_lin _ (rc_camera (rc_swap c))); [ apply lin_moved_camera | apply rc_camera_plain ]. Qed.
Lemma rc_mount_plain i : plain_pose (nth i ex_mounts iso_id).
Proof.
  destruct (Nat.lt_ge_cases i 3) as [L|L]; [ apply ex_mounts_plain, nth_In, L | ]. rewrite nth_overflow by exact L. apply plain_iso_id.
Qed.
Lemma rc_wrists'_plain W : In W rc_wrists' -> plain_pose W.
Proof. intros H. apply in_map_iff in H as (i & <- & _). apply (plain_lin _ (nth (rc_back i) ex_mounts iso_id)); [ apply lin_moved_wrist | apply rc_mount_plain ]. Qed.
Lemma rc_target'_plain : plain_pose (moved_target rc_choices iso_id).
Proof. apply (plain_lin _ iso_id); [ apply lin_moved_target | apply plain_iso_id ]. Qed.

Lemma rc_view_shift c W v : iso_app (rc_view c W) v = vsub (iso_app (ex_view W) v) (V3 (INR c) 0 0).
Proof.
  unfold rc_view, ex_view. rewrite !iso_mul_id_r, !iso_app_mul. generalize (iso_app W v). intros w.
  unfold rc_camera, ex_camera, iso_trans, iso_inv, iso_app, vadd, vneg, vsub, mvec, mT. cbn. apply vec3_ext; cbn; ring.
Qed.
Lemma rc_view_rigid c W : In W ex_mounts -> rigid (rc_view c W).
Proof.
  intros H. apply rigid_mul; [ apply rigid_inv, rigid_trans | apply rigid_mul; [ apply plain_rigid, ex_mounts_plain, H | apply rigid_id ] ].
Qed.
Lemma rc_perfect c W : In W ex_mounts -> perfect_image ex_k (rc_view c W) (rc_shot c W).
Proof.
  intros H. apply ex_image2_perfect. intros v Hv. rewrite rc_view_shift. pose proof (ex_mounts_front W v H Hv) as Q.
  rewrite ex_view_eq in Q. unfold in_front, vsub in *. cbn [vz]. lra.
Qed.
Lemma rc_seen c i x : (c < 2)%nat -> (i < 3)%nat -> In x (nth i (nth c rc_images []) []) ->
  rigid (rc_view c (nth i ex_mounts iso_id)) /\ perfect_image (camera_of [ex_k; ex_k] c) (rc_view c (nth i ex_mounts iso_id)) [x].
Proof.
  intros Hc Hi Hx. assert (E : nth i (nth c rc_images []) [] = rc_shot c (nth i ex_mounts iso_id)).
  { destruct c as [|[|c]]; [ | | lia ]; (destruct i as [|[|[|i]]]; [ | | | lia ]); reflexivity. }
  rewrite E in Hx. assert (I : In (nth i ex_mounts iso_id) ex_mounts) by (apply nth_In; exact Hi).
  split; [ apply rc_view_rigid, I | ]. intros y [<-|[]].
  assert (K : camera_of [ex_k; ex_k] c = ex_k) by (destruct c as [|[|c]]; [ | | lia ]; reflexivity). rewrite K. apply (rc_perfect c _ I), Hx.
Qed.
Lemma rc_nth_camera c : (c < 2)%nat -> nth c [rc_camera 0; rc_camera 1] iso_id = rc_camera c.
Proof. intros Hc. destruct c as [|[|c]]; [ | | lia ]; reflexivity. Qed.

(** ** Static cameras *)
Definition rc_sp : static_problem :=
  SP [ex_k; ex_k] [ex_mounts; ex_mounts] rc_images iso_id [rc_camera 0; rc_camera 1] "wrist_to_target" "base_to_camera".
Definition rc_sp' : static_problem :=
  SP rc_intr' [rc_wrists'; rc_wrists'] rc_images' (moved_target rc_choices iso_id) rc_cameras' "wrist_to_target" "base_to_camera".
Lemma rc_same_static : same_static rc_choices rc_sp rc_sp'.
Proof.
  split; [ reflexivity | split; [ apply rc_swaps | ] ]. intros c Hc. change (c < 2)%nat in Hc. cbv zeta.
  assert (L : List.length (nth (was_camera rc_choices c) (sp_wrist_poses rc_sp) []) = 3%nat) by (destruct c as [|[|c]]; [ | | lia ]; reflexivity).
  rewrite L. split; [ apply rc_same_camera, Hc | split; [ destruct c as [|[|c]]; [ | | lia ]; reflexivity | split; [ apply rc_backs | ] ] ].
  intros i Hi. split; [ | apply rc_same_shot; assumption ].
  destruct c as [|[|c]]; [ | | lia ]; (destruct i as [|[|[|i]]]; [ | | | lia ]); reflexivity.
Qed.
Lemma static_run p : static_sizes p -> all_cameras_used p -> guesses_plain_static p -> (0 < List.length (sp_base_to_camera_guess p))%nat ->
  exists r, optimizeStatic (fun _ _ => 0) sc_still ex_cov_oracle p = Ok r /\
    sr_wrist_to_target r = sp_wrist_to_target_guess p /\ sr_base_to_camera r = sp_base_to_camera_guess p.
Proof.
  intros Sz AU PG N.
  destruct (static_succeeds p (fun _ _ => 0) sc_still ex_cov_oracle Sz AU) as [r E]; try reflexivity; try assumption; [ apply ex_oracle_sym | ].
  exists r. split; [ exact E | ]. apply (static_unmoved p _ _ _ r Sz PG sc_still_still E).
Qed.
Lemma rc_static : exists u solve cov p r p' r' h,
  honest_blocks solve /\ optimizeStatic u solve cov p = Ok r /\ optimizeStatic u solve cov p' = Ok r' /\
  static_sizes p /\ plain_wrists p /\ static_sizes p' /\ plain_wrists p' /\
  (forall T, In T (sr_base_to_camera r) -> rigid T) /\ rigid (sr_wrist_to_target r) /\
  (forall T, In T (sr_base_to_camera r') -> rigid T) /\
  sensible_rig h /\ same_static h p p' /\ was_camera h 0 = 1%nat /\ was_image h 0 0 = 2%nat /\
  best_of (cameras_and_wrist (List.length (sp_base_to_camera_guess p)) (static_wrist p)) (camera_of (sp_intr p))
          (static_views p) (static_poses p r) /\
  best_of (cameras_and_wrist (List.length (sp_base_to_camera_guess p')) (static_wrist p')) (camera_of (sp_intr p'))
          (static_views p') (static_poses p' r').
Proof.
  assert (Sz : static_sizes rc_sp).
  { split; [ reflexivity | split; [ reflexivity | split; [ reflexivity | ] ] ]. intros c Hc. change (c < 2)%nat in Hc.
    destruct c as [|[|c]]; [ | | lia ]; reflexivity. }
  assert (Sz' : static_sizes rc_sp').
  { split; [ reflexivity | split; [ reflexivity | split; [ reflexivity | ] ] ]. intros c Hc. change (c < 2)%nat in Hc.
    destruct c as [|[|c]]; [ | | lia ]; reflexivity. }
  assert (PW : plain_wrists rc_sp).
  { intros c W HW. destruct c as [|[|[|c]]]; cbn [rc_sp sp_wrist_poses nth] in HW; try contradiction; apply ex_mounts_plain, HW. }
  assert (PW' : plain_wrists rc_sp').
  { intros c W HW. destruct c as [|[|[|c]]]; cbn [rc_sp' sp_wrist_poses nth] in HW; try contradiction; apply rc_wrists'_plain, HW. }
  destruct (static_run rc_sp Sz) as (r & E & Ez & Ec); try reflexivity.
  { intros c Hc. change (c < 2)%nat in Hc. exists 0%nat. destruct c as [|[|c]]; [ | | lia ];
      (eexists; apply in_static_views; split; [ exact Hc | split; [ cbn; lia | left; reflexivity ] ]). }
  { split; [ apply plain_iso_id | apply rc_cameras_plain ]. } { cbn; lia. }
  destruct (static_run rc_sp' Sz') as (r' & E' & Ez' & Ec'); try reflexivity.
  { intros c Hc. change (c < 2)%nat in Hc. exists 0%nat. destruct c as [|[|c]]; [ | | lia ];
      (eexists; apply in_static_views; split; [ exact Hc | split; [ cbn; lia | left; reflexivity ] ]). }
  { split; [ apply rc_target'_plain | apply rc_cameras'_plain ]. } { cbn; lia. }
  assert (RC : forall T, In T (sr_base_to_camera r) -> rigid T) by (rewrite Ec; intros T HT; apply plain_rigid, rc_cameras_plain, HT).
  assert (RZ : rigid (sr_wrist_to_target r)) by (rewrite Ez; apply rigid_id).
  assert (RC' : forall T, In T (sr_base_to_camera r') -> rigid T) by (rewrite Ec'; intros T HT; apply plain_rigid, rc_cameras'_plain, HT).
  assert (B : best_of (cameras_and_wrist (List.length (sp_base_to_camera_guess rc_sp)) (static_wrist rc_sp)) (camera_of (sp_intr rc_sp))
          (static_views rc_sp) (static_poses rc_sp r)).
  { apply perfect_best.
    - exists (fun c => nth c (sr_base_to_camera r) iso_id), (sr_wrist_to_target r).
      split; [ apply nth_rigid', RC | split; [ exact RZ | reflexivity ] ].
    - intros c i x Hv. apply in_static_views in Hv as (Hc & Hi & Hx). change (c < 2)%nat in Hc.
      assert (L : List.length (nth c (sp_wrist_poses rc_sp) []) = 3%nat) by (destruct c as [|[|c]]; [ | | lia ]; reflexivity). rewrite L in Hi.
      unfold static_poses. rewrite Ec, Ez. cbn [rc_sp sp_base_to_camera_guess sp_wrist_to_target_guess sp_intr].
      rewrite rc_nth_camera by exact Hc. unfold static_wrist.
      replace (nth c (sp_wrist_poses rc_sp) []) with ex_mounts by (destruct c as [|[|c]]; [ | | lia ]; reflexivity).
      apply (rc_seen c i x Hc Hi Hx). }
  exists (fun _ _ => 0), sc_still, ex_cov_oracle, rc_sp, r, rc_sp', r', rc_choices.
  split; [ apply sc_still_honest | split; [ exact E | split; [ exact E' | split; [ exact Sz | split; [ exact PW | split; [ exact Sz' | split; [ exact PW' | ] ] ] ] ] ] ].
  split; [ exact RC | split; [ exact RZ | split; [ exact RC' | split; [ apply rc_sensible | split; [ apply rc_same_static | split; [ reflexivity | split; [ reflexivity | ] ] ] ] ] ] ].
  split; [ exact B | ].
  pose proof (proj2 (static_restated _ _ rc_sp' rc_choices RC RZ rc_sensible rc_same_static B)) as B1.
  destruct B1 as (F1 & V1 & B1).
  assert (Q : forall c i x, In (c, i, x) (static_views rc_sp') -> static_anew rc_choices rc_sp' r c i = static_poses rc_sp' r' c i).
  { intros c i x Hv. apply in_static_views in Hv as (Hc & _). change (c < 2)%nat in Hc. unfold static_anew, static_poses. rewrite Ec, Ez, Ec', Ez'.
    destruct c as [|[|c]]; [ | | lia ]; reflexivity. }
  split; [ | split; [ apply (rig_in_view_ext _ _ _ Q), V1 | ] ].
  - exists (fun c => nth c (sr_base_to_camera r') iso_id), (sr_wrist_to_target r').
    split; [ apply nth_rigid', RC' | split; [ rewrite Ez'; apply plain_rigid, rc_target'_plain | reflexivity ] ].
  - intros T' FT VT. rewrite <- (rig_error_ext _ _ _ _ Q). apply B1; assumption.
Qed.

(** ** Cameras moved as a whole *)
Definition rc_wp : wrist_problem := WP [ex_k; ex_k] ex_mounts rc_images iso_id [rc_camera 0; rc_camera 1].
Definition rc_wp' : wrist_problem := WP rc_intr' rc_wrists' rc_images' (moved_target rc_choices iso_id) rc_cameras'.
Lemma rc_same_wrist : same_wrist rc_choices rc_wp rc_wp'.
Proof.
  split; [ reflexivity | split; [ reflexivity | split; [ apply rc_swaps | split; [ intros c i; reflexivity | split; [ apply (rc_backs 0) | split ] ] ] ] ].
  - intros i Hi. change (i < 3)%nat in Hi. destruct i as [|[|[|i]]]; [ | | | lia ]; reflexivity.
  - intros c Hc. change (c < 2)%nat in Hc. split; [ apply rc_same_camera, Hc | split ].
    + destruct c as [|[|c]]; [ | | lia ]; reflexivity.
    + intros i Hi. apply rc_same_shot; assumption.
Qed.
Lemma wrist_run p : wrist_sizes p -> (forall T, In T (wp_wrist_poses p) -> plain_pose T) ->
  (forall T, In T (wp_base_to_camera_guess p) -> plain_pose T) -> plain_pose (wp_wrist_to_target_guess p) ->
  exists r, optimizeWrist sc_still p = Ok r /\ wr_base_to_camera r = wp_base_to_camera_guess p /\ wr_wrist_to_target r = wp_wrist_to_target_guess p.
Proof.
  intros Sz PW PC PZ. destruct (wrist_right p Sz PW PC) as (blocks & _ & Res). destruct (Res sc_still) as (_ & _ & r & _ & E & _).
  exists r. split; [ exact E | ]. apply (wrist_unmoved p sc_still r sc_still_still PZ E).
Qed.
Lemma rc_wrist : exists solve p r p' r' h,
  honest_blocks solve /\ optimizeWrist solve p = Ok r /\ optimizeWrist solve p' = Ok r' /\
  wrist_sizes p /\ (forall T, In T (wp_wrist_poses p) -> plain_pose T) /\ (forall T, In T (wp_base_to_camera_guess p) -> plain_pose T) /\
  wrist_sizes p' /\ (forall T, In T (wp_wrist_poses p') -> plain_pose T) /\ (forall T, In T (wp_base_to_camera_guess p') -> plain_pose T) /\
  (forall T, In T (wr_base_to_camera r) -> rigid T) /\ rigid (wr_wrist_to_target r) /\
  (forall T, In T (wr_base_to_camera r') -> rigid T) /\
  sensible_rig h /\ same_wrist h p p' /\ was_camera h 0 = 1%nat /\ was_image h 0 0 = 2%nat /\
  best_of (rig_and_wrist (List.length (wp_base_to_camera_guess p)) (fun c => nth c (wp_base_to_camera_guess p) iso_id)
             (fun i => nth i (wp_wrist_poses p) iso_id))
          (camera_of (wp_intr p)) (wrist_views p) (wrist_poses p r) /\
  best_of (rig_and_wrist (List.length (wp_base_to_camera_guess p')) (fun c => nth c (wp_base_to_camera_guess p') iso_id)
             (fun i => nth i (wp_wrist_poses p') iso_id))
          (camera_of (wp_intr p')) (wrist_views p') (wrist_poses p' r').
Proof.
  assert (Sz : wrist_sizes rc_wp).
  { split; [ reflexivity | split; [ reflexivity | ] ]. intros c Hc. change (c < 2)%nat in Hc. destruct c as [|[|c]]; [ | | lia ]; reflexivity. }
  assert (Sz' : wrist_sizes rc_wp').
  { split; [ reflexivity | split; [ reflexivity | ] ]. intros c Hc. change (c < 2)%nat in Hc. destruct c as [|[|c]]; [ | | lia ]; reflexivity. }
  destruct (wrist_run rc_wp Sz ex_mounts_plain rc_cameras_plain plain_iso_id) as (r & E & Ec & Ez).
  destruct (wrist_run rc_wp' Sz' rc_wrists'_plain rc_cameras'_plain rc_target'_plain) as (r' & E' & Ec' & Ez').
  cbn [rc_wp rc_wp' wp_base_to_camera_guess wp_wrist_to_target_guess] in Ec, Ez, Ec', Ez'.
  assert (RC : forall T, In T (wr_base_to_camera r) -> rigid T) by (rewrite Ec; intros T HT; apply plain_rigid, rc_cameras_plain, HT).
  assert (RZ : rigid (wr_wrist_to_target r)) by (rewrite Ez; apply rigid_id).
  assert (RC' : forall T, In T (wr_base_to_camera r') -> rigid T) by (rewrite Ec'; intros T HT; apply plain_rigid, rc_cameras'_plain, HT).
  assert (B : best_of (rig_and_wrist (List.length (wp_base_to_camera_guess rc_wp)) (fun c => nth c (wp_base_to_camera_guess rc_wp) iso_id)
             (fun i => nth i (wp_wrist_poses rc_wp) iso_id)) (camera_of (wp_intr rc_wp)) (wrist_views rc_wp) (wrist_poses rc_wp r)).
  { apply perfect_best.
    - exists iso_id, (wr_wrist_to_target r). split; [ apply rigid_id | split; [ exact RZ | ] ].
      intros c i Hc. unfold wrist_poses. rewrite Ec, iso_mul_id_l. reflexivity.
    - intros c i x Hv. apply in_wrist_views in Hv as (Hc & Hi & Hx). change (c < 2)%nat in Hc. change (i < 3)%nat in Hi.
      unfold wrist_poses. rewrite Ec, Ez, rc_nth_camera by exact Hc. apply (rc_seen c i x Hc Hi Hx). }
  assert (Cd : exists K, rigid K /\ forall c, (c < List.length (wp_base_to_camera_guess rc_wp))%nat ->
    nth c (wr_base_to_camera r) iso_id = iso_mul K (nth c (wp_base_to_camera_guess rc_wp) iso_id)).
  { exists iso_id. split; [ apply rigid_id | ]. intros c _. rewrite Ec, iso_mul_id_l. reflexivity. }
  exists sc_still, rc_wp, r, rc_wp', r', rc_choices.
  split; [ apply sc_still_honest | split; [ exact E | split; [ exact E' | split; [ exact Sz | split; [ apply ex_mounts_plain | split; [ apply rc_cameras_plain | ] ] ] ] ] ].
  split; [ exact Sz' | split; [ apply rc_wrists'_plain | split; [ apply rc_cameras'_plain | ] ] ].
  split; [ exact RC | split; [ exact RZ | split; [ exact RC' | split; [ apply rc_sensible | split; [ apply rc_same_wrist | split; [ reflexivity | split; [ reflexivity | ] ] ] ] ] ] ].
  split; [ exact B | ].
  pose proof (proj2 (wrist_restated _ _ rc_wp' rc_choices Cd RZ rc_sensible rc_same_wrist B)) as B1. destruct B1 as (F1 & V1 & B1).
  assert (Q : forall c i x, In (c, i, x) (wrist_views rc_wp') -> wrist_anew rc_choices rc_wp' r c i = wrist_poses rc_wp' r' c i).
  { intros c i x Hv. apply in_wrist_views in Hv as (Hc & _). change (c < 2)%nat in Hc. unfold wrist_anew, wrist_poses. rewrite Ec, Ez, Ec', Ez'.
    destruct c as [|[|c]]; [ | | lia ]; reflexivity. }
  split; [ | split; [ apply (rig_in_view_ext _ _ _ Q), V1 | ] ].
  - exists iso_id, (wr_wrist_to_target r'). split; [ apply rigid_id | split; [ rewrite Ez'; apply plain_rigid, rc_target'_plain | ] ].
    intros c i Hc. unfold wrist_poses. rewrite Ec', iso_mul_id_l. reflexivity.
  - intros T' FT VT. rewrite <- (rig_error_ext _ _ _ _ Q). apply B1; assumption.
Qed.

(** ** Cameras and targets *)
Definition rc_targets' : list iso := map (fun i => placed_target rc_choices (nth (rc_back i) ex_mounts iso_id)) [0; 1; 2]%nat.
Lemma rc_targets'_plain T : In T rc_targets' -> plain_pose T.
Proof. intros H. apply in_map_iff in H as (i & <- & _). apply (plain_lin _ (nth (rc_back i) ex_mounts iso_id)); [ apply lin_placed_target | apply rc_mount_plain ]. Qed.
Definition rc_op : only_problem := OP true [ex_k; ex_k] rc_images ex_mounts [rc_camera 0; rc_camera 1].
Definition rc_op' : only_problem := OP true rc_intr' rc_images' rc_targets' rc_cameras'.
Lemma rc_same_only : same_only rc_choices rc_op rc_op'.
Proof.
  split; [ reflexivity | split; [ reflexivity | split; [ apply rc_swaps | split; [ intros c i; reflexivity | split; [ apply (rc_backs 0) | ] ] ] ] ].
  intros c Hc. change (c < 2)%nat in Hc. split; [ apply rc_same_camera, Hc | ]. intros i Hi. apply rc_same_shot; assumption.
Qed.
Lemma rc_only : exists solve p r p' r' h,
  honest_blocks solve /\ leaves_others solve /\ optimizeOnly solve p = Ok r /\ optimizeOnly solve p' = Ok r' /\
  only_sizes p /\ only_sizes p' /\ op_fix_first_camera p = true /\ op_fix_first_camera p' = true /\
  (forall T, nth_error (op_base_to_camera_guess p) 0 = Some T -> plain_pose T) /\
  (forall T, nth_error (op_base_to_camera_guess p') 0 = Some T -> plain_pose T) /\
  (forall T, In T (or_base_to_camera r) -> rigid T) /\ (forall T, In T (or_base_to_target r) -> rigid T) /\
  (forall T, In T (or_base_to_camera r') -> rigid T) /\
  sensible_rig h /\ same_only h p p' /\ was_camera h 0 = 1%nat /\ was_image h 0 0 = 2%nat /\
  best_of (cameras_and_targets (List.length (op_base_to_camera_guess p))) (camera_of (op_intr p)) (only_views p) (only_poses r) /\
  best_of (cameras_and_targets (List.length (op_base_to_camera_guess p'))) (camera_of (op_intr p')) (only_views p') (only_poses r').
Proof.
  assert (Sz : only_sizes rc_op).
  { split; [ reflexivity | split; [ reflexivity | ] ]. intros c Hc. change (c < 2)%nat in Hc. destruct c as [|[|c]]; [ | | lia ]; reflexivity. }
  assert (Sz' : only_sizes rc_op').
  { split; [ reflexivity | split; [ reflexivity | ] ]. intros c Hc. change (c < 2)%nat in Hc. destruct c as [|[|c]]; [ | | lia ]; reflexivity. }
  destruct (only_returns rc_op sc_still Sz) as (r & E & _). destruct (only_returns rc_op' sc_still Sz') as (r' & E' & _).
  destruct (only_unmoved rc_op sc_still r Sz sc_still_still) as [Ec Et]; try exact E; try discriminate.
  { apply rc_cameras_plain. } { apply ex_mounts_plain. }
  destruct (only_unmoved rc_op' sc_still r' Sz' sc_still_still) as [Ec' Et']; try exact E'; try discriminate.
  { apply rc_cameras'_plain. } { apply rc_targets'_plain. }
  cbn [rc_op rc_op' op_base_to_camera_guess op_base_to_target_guess] in Ec, Et, Ec', Et'.
  assert (RC : forall T, In T (or_base_to_camera r) -> rigid T) by (rewrite Ec; intros T HT; apply plain_rigid, rc_cameras_plain, HT).
  assert (RT : forall T, In T (or_base_to_target r) -> rigid T) by (rewrite Et; intros T HT; apply plain_rigid, ex_mounts_plain, HT).
  assert (RC' : forall T, In T (or_base_to_camera r') -> rigid T) by (rewrite Ec'; intros T HT; apply plain_rigid, rc_cameras'_plain, HT).
  assert (RT' : forall T, In T (or_base_to_target r') -> rigid T) by (rewrite Et'; intros T HT; apply plain_rigid, rc_targets'_plain, HT).
  assert (B : best_of (cameras_and_targets (List.length (op_base_to_camera_guess rc_op))) (camera_of (op_intr rc_op)) (only_views rc_op) (only_poses r)).
  { apply perfect_best.
    - exists (fun c => nth c (or_base_to_camera r) iso_id), (fun i => nth i (or_base_to_target r) iso_id).
      split; [ apply nth_rigid', RC | split; [ apply nth_rigid', RT | reflexivity ] ].
    - intros c i x Hv. apply in_only_views in Hv as (Hc & Hi & Hx). change (c < 2)%nat in Hc. change (i < 3)%nat in Hi.
      unfold only_poses. rewrite Ec, Et, rc_nth_camera by exact Hc. rewrite <- (iso_mul_id_r (nth i ex_mounts iso_id)). apply (rc_seen c i x Hc Hi Hx). }
  exists sc_still, rc_op, r, rc_op', r', rc_choices.
  split; [ apply sc_still_honest | split; [ apply sc_still_leaves | split; [ exact E | split; [ exact E' | split; [ exact Sz | split; [ exact Sz' | ] ] ] ] ] ].
  split; [ reflexivity | split; [ reflexivity | split; [ intros T HT; apply rc_cameras_plain, (nth_error_In _ _ HT) | split; [ intros T HT; apply rc_cameras'_plain, (nth_error_In _ _ HT) | ] ] ] ].
  split; [ exact RC | split; [ exact RT | split; [ exact RC' | split; [ apply rc_sensible | split; [ apply rc_same_only | split; [ reflexivity | split; [ reflexivity | ] ] ] ] ] ] ].
  split; [ exact B | ].
  pose proof (proj2 (only_restated _ _ rc_op' rc_choices RC RT rc_sensible rc_same_only B)) as B1. destruct B1 as (F1 & V1 & B1).
  assert (Q : forall c i x, In (c, i, x) (only_views rc_op') -> only_anew rc_choices r c i = only_poses r' c i).
  { intros c i x Hv. apply in_only_views in Hv as (Hc & Hi & _). change (c < 2)%nat in Hc. change (i < 3)%nat in Hi. unfold only_anew, only_poses. rewrite Ec, Et, Ec', Et'.
    destruct c as [|[|c]]; [ | | lia ]; (destruct i as [|[|[|i]]]; [ | | | lia ]); reflexivity. }
  split; [ | split; [ apply (rig_in_view_ext _ _ _ Q), V1 | ] ].
  - exists (fun c => nth c (or_base_to_camera r') iso_id), (fun i => nth i (or_base_to_target r') iso_id).
    split; [ apply nth_rigid', RC' | split; [ apply nth_rigid', RT' | reflexivity ] ].
  - intros T' FT VT. rewrite <- (rig_error_ext _ _ _ _ Q). apply B1; assumption.
Qed.

(** ** A target at rest *)
Definition rc_mp : mpnp_problem := MP [ex_k; ex_k] [rc_camera 0; rc_camera 1] [rc_shot 0 iso_id; rc_shot 1 iso_id] iso_id.
Definition rc_mp' : mpnp_problem :=
  MP rc_intr' rc_cameras' (map (fun c => rc_restate c (rc_shot (rc_swap c) iso_id)) [0; 1]%nat) (placed_target rc_choices iso_id).
Lemma rc_same_mpnp : same_mpnp rc_choices rc_mp rc_mp'.
Proof.
  split; [ reflexivity | split; [ apply rc_swaps | ] ]. intros c Hc. change (c < 2)%nat in Hc. split; [ apply rc_same_camera, Hc | split ].
  - destruct c as [|[|c]]; [ | | lia ]; reflexivity.
  - destruct c as [|[|c]]; [ | | lia ]; apply rc_restate_same.
Qed.
Lemma mpnp_run p : mpnp_sizes p -> (forall T, In T (mp_base_to_camera p) -> plain_pose T) -> plain_pose (mp_base_to_target_guess p) ->
  exists r, optimizeMpnp sc_still p = Ok r /\ mr_base_to_target r = mp_base_to_target_guess p.
Proof.
  intros Sz PC PG. destruct (mpnp_right p Sz PC) as (blocks & _ & Res). destruct (Res sc_still) as (_ & _ & _ & r & _ & _ & E & _).
  exists r. split; [ exact E | ]. apply (mpnp_unmoved p sc_still r sc_still_still PG E).
Qed.
Lemma rc_mpnp : exists solve p r p' r' h,
  honest_blocks solve /\ optimizeMpnp solve p = Ok r /\ optimizeMpnp solve p' = Ok r' /\
  mpnp_sizes p /\ (forall T, In T (mp_base_to_camera p) -> plain_pose T) /\
  mpnp_sizes p' /\ (forall T, In T (mp_base_to_camera p') -> plain_pose T) /\
  rigid (mr_base_to_target r) /\
  sensible_rig h /\ same_mpnp h p p' /\ was_camera h 0 = 1%nat /\
  best_of (known_cameras (List.length (mp_base_to_camera p)) (fun c => nth c (mp_base_to_camera p) iso_id)) (camera_of (mp_intr p))
          (single_views p) (mpnp_poses p r) /\
  best_of (known_cameras (List.length (mp_base_to_camera p')) (fun c => nth c (mp_base_to_camera p') iso_id)) (camera_of (mp_intr p'))
          (single_views p') (mpnp_poses p' r').
Proof.
  assert (Sz : mpnp_sizes rc_mp) by (split; reflexivity). assert (Sz' : mpnp_sizes rc_mp') by (split; reflexivity).
  assert (PT' : plain_pose (placed_target rc_choices iso_id)) by (apply (plain_lin _ iso_id); [ apply lin_placed_target | apply plain_iso_id ]).
  destruct (mpnp_run rc_mp Sz rc_cameras_plain plain_iso_id) as (r & E & Er).
  destruct (mpnp_run rc_mp' Sz' rc_cameras'_plain PT') as (r' & E' & Er').
  cbn [rc_mp rc_mp' mp_base_to_target_guess] in Er, Er'.
  assert (RT : rigid (mr_base_to_target r)) by (rewrite Er; apply rigid_id).
  assert (B : best_of (known_cameras (List.length (mp_base_to_camera rc_mp)) (fun c => nth c (mp_base_to_camera rc_mp) iso_id)) (camera_of (mp_intr rc_mp))
          (single_views rc_mp) (mpnp_poses rc_mp r)).
  { apply perfect_best.
    - exists (mr_base_to_target r). split; [ exact RT | reflexivity ].
    - intros c i x Hv. apply in_map_iff in Hv as ([c' x'] & [= <- <- <-] & Hv). apply in_flat_map in Hv as (c & Hc & Hv).
      apply in_seq in Hc. change (0 <= c < 2)%nat in Hc. apply in_map_iff in Hv as (x1 & [= <- <-] & Hx).
      unfold mpnp_poses. rewrite Er. cbn [rc_mp mp_base_to_camera mp_intr]. rewrite rc_nth_camera by lia.
      replace (iso_mul (iso_inv (rc_camera c)) iso_id) with (rc_view c iso_id) by (unfold rc_view; rewrite iso_mul_id_l; reflexivity).
      destruct (rc_seen c 0 x1) as [R1 R2]; [ lia | lia | | split; [ exact R1 | exact R2 ] ].
      destruct c as [|[|c]]; [ | | lia ]; exact Hx. }
  exists sc_still, rc_mp, r, rc_mp', r', rc_choices.
  split; [ apply sc_still_honest | split; [ exact E | split; [ exact E' | split; [ exact Sz | split; [ apply rc_cameras_plain | split; [ exact Sz' | split; [ apply rc_cameras'_plain | ] ] ] ] ] ] ].
  split; [ exact RT | split; [ apply rc_sensible | split; [ apply rc_same_mpnp | split; [ reflexivity | split; [ exact B | ] ] ] ] ].
  pose proof (proj2 (mpnp_restated _ _ rc_mp' rc_choices RT rc_sensible rc_same_mpnp B)) as B1.
  unfold mpnp_anew in B1. rewrite Er in B1. unfold mpnp_poses. rewrite Er'. exact B1.
Qed.
