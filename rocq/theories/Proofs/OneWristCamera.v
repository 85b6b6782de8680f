(** C103: cameras that move as a whole, against hand-eye calibration and pose estimation. *)
From Coq Require Import Reals Arith String List Lra Lia.
From Verif.Base Require Import Geom Outcome.
From Verif.Model Require Import Pose Covariance Solver BlockSolver HandEye Pnp MultiCamera.
From Verif.Spec Require Import Frames PinHole OracleSpec PnpSpec UniqueSpec MultiSpec SameDataSpec ToolsAgreeSpec.
From Verif.Proofs Require Import GeomLemmas CovarianceProofs PoseProofs HandEyeProofs PnpProofs MultiCameraProofs UniqueProofs UniqueMulti ProjectionProofs
  UniqueExamples UniqueMultiExamples SameDataProofs SameDataExample ToolsAgreeProofs ToolsAgreeExample.
Import ListNotations.
Local Open Scope R_scope.

(** The data of a wrist problem with one camera as a static problem *)
Definition as_static (q : wrist_problem) : static_problem :=
  SP (wp_intr q) [wp_wrist_poses q] (wp_image_observations q) iso_id (wp_base_to_camera_guess q) "" "".
Lemma one_wrist_camera solve q r hr :
  honest_blocks solve -> optimizeWrist solve q = Ok r -> wrist_sizes q ->
  (forall T, In T (wp_wrist_poses q) -> plain_pose T) -> (forall T, In T (wp_base_to_camera_guess q) -> plain_pose T) ->
  List.length (wp_base_to_camera_guess q) = 1%nat ->
  (forall T, In T (wr_base_to_camera r) -> rigid T) -> rigid (wr_wrist_to_target r) ->
  best_of (rig_and_wrist 1 (fun c => nth c (wp_base_to_camera_guess q) iso_id) (fun i => nth i (wp_wrist_poses q) iso_id))
          (camera_of (wp_intr q)) (wrist_views q) (wrist_poses q r) ->
  calibrated (camera_of (wp_intr q) 0) (wrist_observations q 0) hr ->
  wr_final_cost_per_obs r = he_final_cost_per_obs hr /\
  best_for_images (camera_of (wp_intr q) 0) (sightings (wrist_observations q 0))
    (nth 0 (wr_base_to_camera r) iso_id) (wr_wrist_to_target r).
Proof.
  intros Ho E Sz PW PC N RC RZ B (u' & solve' & cov' & h & Ho' & E' & Ek & Eo & B').
  pose proof (proj1 (proj2 B)) as V. set (p := as_static q).
  assert (Np : List.length (sp_base_to_camera_guess p) = 1%nat) by exact N.
  assert (PWp : plain_wrists p).
  { intros c W HW. destruct c as [|[|c]]; cbn [p as_static sp_wrist_poses nth] in HW; try contradiction. apply PW, HW. }
  assert (EV : static_views p = wrist_views q).
  { unfold static_views, wrist_views. cbn [p as_static sp_base_to_camera_guess sp_image_observations sp_wrist_poses]. f_equal.
    apply camera_major_ext. intros c Hc. rewrite N in Hc. replace c with 0%nat by lia. reflexivity. }
  change (wrist_observations q 0) with (static_observations p 0) in *.
  assert (EE : forall T C Z, (forall c i, (c < 1)%nat -> T c i = iso_mul (iso_inv (C c)) (iso_mul (static_wrist p c i) Z)) ->
    rig_error (camera_of (wp_intr q)) (wrist_views q) T = image_error (camera_of (wp_intr q) 0) (sightings (static_observations p 0)) (C 0%nat) Z).
  { intros T C Z HT. rewrite <- EV, (static_by_camera _ p T C Z) by (rewrite Np; exact HT). rewrite Np. cbn. ring. }
  assert (IV : forall T C Z, (forall c, rigid (C c)) -> rigid Z -> (forall c i, (c < 1)%nat -> T c i = iso_mul (iso_inv (C c)) (iso_mul (static_wrist p c i) Z)) ->
    (rig_in_view (wrist_views q) T <-> in_view (sightings (static_observations p 0)) (C 0%nat) Z)).
  { intros T C Z HC HZ HT. rewrite <- EV, (static_views_cameras p T C Z HC HZ PWp) by (rewrite Np; exact HT). rewrite Np. split.
    - intros Q. apply (Q 0%nat). lia.
    - intros Q c Hc. replace c with 0%nat by lia. exact Q. }
  set (C0 := fun c => nth c (wr_base_to_camera r) iso_id). set (Z0 := wr_wrist_to_target r) in *.
  assert (T0 : forall c i, (c < 1)%nat -> wrist_poses q r c i = iso_mul (iso_inv (C0 c)) (iso_mul (static_wrist p c i) Z0)).
  { intros c i Hc. replace c with 0%nat by lia. reflexivity. }
  assert (BB : best_for_images (camera_of (wp_intr q) 0) (sightings (static_observations p 0)) (C0 0%nat) Z0).
  { split; [ apply (IV (wrist_poses q r) C0 Z0 (nth_rigid' _ RC) RZ T0), V | ].
    intros X' Z' V'. destruct V' as (RX' & RZ' & V'').
    rewrite <- (EE (wrist_poses q r) C0 Z0 T0).
    rewrite <- (EE (fun c i => iso_mul (iso_inv X') (iso_mul (static_wrist p c i) Z')) (fun _ => X') Z') by reflexivity.
    pose proof (nth_rigid _ PC 0%nat) as RG. set (G := nth 0 (wp_base_to_camera_guess q) iso_id) in *.
    apply (proj2 (proj2 B)).
    - exists (iso_mul X' (iso_inv G)), Z'. split; [ apply rigid_mul; [ exact RX' | apply rigid_inv, RG ] | split; [ exact RZ' | ] ].
      intros c i Hc. replace c with 0%nat by lia. fold G.
      rewrite iso_mul_assoc, iso_inv_l, iso_mul_id_r by exact RG. reflexivity.
    - apply (IV _ (fun _ => X') Z'); try assumption; try reflexivity; [ intros _; exact RX' | ]. split; [ exact RX' | split; assumption ]. }
  split; [ | exact BB ].
  rewrite <- Ek, <- Eo in B'.
  rewrite (he_error2 _ _ _ _ _ Ho' E'); [ | rewrite Eo; apply static_plain, PWp | apply B' ].
  rewrite (proj1 (wrist_reported _ _ _ Ho E Sz PW PC RC V)), (EE (wrist_poses q r) C0 Z0 T0).
  rewrite <- Ek, <- Eo in BB |- *. rewrite (best_images_error _ _ _ _ _ _ BB B'). f_equal. f_equal. f_equal. rewrite Eo, <- EV.
  unfold static_views, views, camera_major. rewrite Np. cbn [seq flat_map]. rewrite app_nil_r.
  unfold sightings, static_observations. rewrite !flat_map_map.
  clear. generalize (seq 0 (List.length (nth 0 (sp_wrist_poses p) []))). intros l. induction l as [|i l IH]; [ reflexivity | ].
  cbn. rewrite !app_length, !map_length. f_equal. exact IH.
Qed.
Lemma pictures_vs_wrist solve q r rp :
  honest_blocks solve -> optimizeWrist solve q = Ok r -> wrist_sizes q ->
  (forall T, In T (wp_wrist_poses q) -> plain_pose T) -> (forall T, In T (wp_base_to_camera_guess q) -> plain_pose T) ->
  (forall T, In T (wr_base_to_camera r) -> rigid T) ->
  rig_in_view (wrist_views q) (wrist_poses q r) ->
  (forall c i, (c < List.length (wp_base_to_camera_guess q))%nat -> (i < List.length (wp_wrist_poses q))%nat ->
     estimated (camera_of (wp_intr q) c) (images_of (wp_image_observations q) c i) (rp c i)) ->
  sum_over (seq 0 (List.length (wp_base_to_camera_guess q))) (fun c => sum_over (seq 0 (List.length (wp_wrist_poses q)))
    (fun i => INR (2 * List.length (images_of (wp_image_observations q) c i)) * pnp_final_cost_per_obs (rp c i))) <=
  INR (2 * List.length (wrist_views q)) * wr_final_cost_per_obs r.
Proof.
  intros Ho E Sz PW PC RC V P. rewrite (proj1 (wrist_reported _ _ _ Ho E Sz PW PC RC V)), per_obs_times by apply rig_empty.
  eapply Rle_trans; [ | apply (pictures_vs_rig _ _ _ _ rp V) ].
  - unfold camera_major. rewrite sum_flat. right. apply sum_eq. intros c _. rewrite sum_map. reflexivity.
  - intros c i Hci. unfold camera_major in Hci. apply in_flat_map in Hci as (c' & Hc & Hi). apply in_map_iff in Hi as (i' & [= <- <-] & Hi).
    apply in_seq in Hc. apply in_seq in Hi. apply P; lia.
Qed.

Lemma ex_wrist_best : exists solve q r hr rp,
  honest_blocks solve /\ optimizeWrist solve q = Ok r /\ wrist_sizes q /\
  (forall T, In T (wp_wrist_poses q) -> plain_pose T) /\ (forall T, In T (wp_base_to_camera_guess q) -> plain_pose T) /\
  List.length (wp_base_to_camera_guess q) = 1%nat /\ List.length (wp_wrist_poses q) = 3%nat /\
  (forall T, In T (wr_base_to_camera r) -> rigid T) /\ rigid (wr_wrist_to_target r) /\
  best_of (rig_and_wrist 1 (fun c => nth c (wp_base_to_camera_guess q) iso_id) (fun i => nth i (wp_wrist_poses q) iso_id))
          (camera_of (wp_intr q)) (wrist_views q) (wrist_poses q r) /\
  calibrated (camera_of (wp_intr q) 0) (wrist_observations q 0) hr /\
  (forall c i, (c < List.length (wp_base_to_camera_guess q))%nat -> (i < List.length (wp_wrist_poses q))%nat ->
     estimated (camera_of (wp_intr q) c) (images_of (wp_image_observations q) c i) (rp c i)).
Proof.
  assert (Sz : wrist_sizes ex_wp).
  { repeat split. cbn [ex_wp wp_base_to_camera_guess]. intros c Hc. cbn in Hc. assert (c = 0%nat) by lia. subst c. reflexivity. }
  assert (PW : forall T, In T (wp_wrist_poses ex_wp) -> plain_pose T) by (intros T HT; apply ex_mounts_plain, HT).
  assert (PC : forall T, In T (wp_base_to_camera_guess ex_wp) -> plain_pose T) by (intros T [<-|[]]; apply ex_camera_plain).
  destruct (wrist_right ex_wp Sz PW PC) as (blocks & _ & Res). destruct (Res sc_still) as (_ & _ & r & _ & E & _).
  destruct (wrist_unmoved ex_wp sc_still r sc_still_still id_plain E) as [Ec Ez]. cbn [ex_wp wp_base_to_camera_guess wp_wrist_to_target_guess] in Ec, Ez.
  destruct ex_calibrated as [hr D]. destruct ex_all_estimated as [rp P].
  exists sc_still, ex_wp, r, hr, (fun _ => rp).
  split; [ apply sc_still_honest | split; [ exact E | split; [ exact Sz | split; [ exact PW | split; [ exact PC | split; [ reflexivity | split; [ reflexivity | ] ] ] ] ] ] ].
  split; [ rewrite Ec; intros T [<-|[]]; apply rigid_trans | split; [ rewrite Ez; apply rigid_id | ] ].
  split; [ | split; [ exact D | intros c i Hc Hi; cbn in Hc; assert (c = 0%nat) by lia; subst c; apply (P i Hi) ] ].
  apply perfect_best.
  - exists iso_id, (wr_wrist_to_target r). split; [ apply rigid_id | split; [ rewrite Ez; apply rigid_id | ] ].
    intros c i Hc. unfold wrist_poses. rewrite iso_mul_id_l, Ec. reflexivity.
  - intros c i x Hv. apply in_wrist_views in Hv as (Hc & Hi & Hx). cbn in Hc. assert (c = 0%nat) by lia. subst c.
    unfold wrist_poses. rewrite Ec, Ez. apply (ex_images 0 i x); [ lia | exact Hi | exact Hx ].
Qed.
