(** Concrete data for C79. *)
From Coq Require Import Reals Lra Psatz Arith Lia List String.
From Verif.Base Require Import Geom Outcome Matrix.
From Verif.Model Require Import Pose Covariance Solver HandEye BlockSolver MultiCamera.
From Verif.Spec Require Import CovarianceSpec PinHole Frames HomographySpec PnpSpec MultiSpec UniqueSpec.
From Verif.Proofs Require Import GeomLemmas RotLemmas AngleAxisLemmas PoseProofs CovarianceProofs HandEyeProofs PnpProofs
  MultiCameraProofs UniqueLemmas UniqueProofs UniqueExamples UniqueMulti.
Import ListNotations.
Local Open Scope R_scope.

Definition sc_still : block_solver := fun blocks m =>
  let c := half_squares (flat_map (fun b => rb_eval b m) blocks) in (m, Summary true c c).
Lemma sc_still_honest : honest_blocks sc_still.
Proof. intros blocks m. reflexivity. Qed.
Lemma sc_still_still : stands_still sc_still.
Proof. intros blocks m. reflexivity. Qed.
Lemma sc_still_leaves : leaves_others sc_still.
Proof. intros blocks m k i _. reflexivity. Qed.

Definition ex_view (W : iso) : iso := iso_mul (iso_inv ex_camera) (iso_mul W iso_id).
Lemma ex_view_eq W : target_in_camera ex_camera iso_id W iso_id = ex_view W.
Proof. unfold target_in_camera, ex_view. rewrite iso_mul_id_l. reflexivity. Qed.
Definition ex_picture (W : iso) : list (correspondence vec2) := ex_image2 ex_k (ex_view W).
Lemma ex_picture_perfect W : In W ex_mounts -> perfect_image ex_k (ex_view W) (ex_picture W).
Proof. intros H. apply ex_image2_perfect. intros v Hv. rewrite <- ex_view_eq. apply ex_mounts_front; assumption. Qed.
Lemma ex_picture_front W : In W ex_mounts -> all_in_front (ex_view W) (ex_picture W).
Proof. intros H c Hc. apply ex_picture_perfect; assumption. Qed.
Lemma ex_picture_usable W : In W ex_mounts -> usable ex_k (ex_view W) (ex_picture W).
Proof.
  intros H. split; [ cbn; lra | split; [ cbn; lra | split; [ apply ex_square_flat | ] ] ].
  rewrite <- ex_view_eq. apply ex_mounts_not_edge, H.
Qed.
Lemma ex_camera_plain : plain_pose ex_camera.
Proof. apply plain_id_tr. Qed.
Lemma id_plain : plain_pose iso_id.
Proof. apply (plain_id_tr vzero). Qed.
Lemma in_mounts i : (i < 3)%nat -> In (nth i ex_mounts iso_id) ex_mounts.
Proof. intros H. apply nth_In. exact H. Qed.

(** *** PnP with several cameras *)
Definition ex_mp : mpnp_problem := MP [ex_k] [ex_camera] [ex_picture iso_id] iso_id.
Lemma ex_mp_unique : exists solve p r B0,
  let n := List.length (mp_base_to_camera p) in
  let k c := nth c (mp_intr p) intr0 in
  let image c := nth c (mp_image_observations p) [] in
  let seen B c := iso_mul (iso_inv (nth c (mp_base_to_camera p) iso_id)) B in
  honest_blocks solve /\ optimizeMpnp solve p = Ok r /\ mpnp_sizes p /\
  (forall T, In T (mp_base_to_camera p) -> plain_pose T) /\
  rigid B0 /\ rigid (mr_base_to_target r) /\
  (forall c, (c < n)%nat -> perfect_image (k c) (seen B0 c) (image c) /\
                       all_in_front (seen (mr_base_to_target r) c) (image c)) /\
  (exists c, (c < n)%nat /\ usable (k c) (seen B0 c) (image c)) /\
  mr_final_cost_per_obs r = 0.
Proof.
  assert (Sz : mpnp_sizes ex_mp) by (split; reflexivity).
  assert (PC : forall T, In T (mp_base_to_camera ex_mp) -> plain_pose T) by (intros T [<-|[]]; apply ex_camera_plain).
  destruct (mpnp_right ex_mp Sz PC) as (blocks & _ & Res). destruct (Res sc_still) as (_ & _ & _ & r & _ & _ & E & _).
  pose proof (mpnp_unmoved ex_mp sc_still r sc_still_still id_plain E) as Er. cbn [ex_mp mp_base_to_target_guess] in Er.
  assert (V : iso_mul (iso_inv ex_camera) iso_id = ex_view iso_id) by (unfold ex_view; rewrite iso_mul_id_l; reflexivity).
  assert (I0 : In iso_id ex_mounts) by (left; reflexivity).
  assert (D : forall c, (c < 1)%nat -> perfect_image (nth c (mp_intr ex_mp) intr0) (iso_mul (iso_inv (nth c (mp_base_to_camera ex_mp) iso_id)) iso_id) (nth c (mp_image_observations ex_mp) []) /\
     all_in_front (iso_mul (iso_inv (nth c (mp_base_to_camera ex_mp) iso_id)) (mr_base_to_target r)) (nth c (mp_image_observations ex_mp) [])).
  { intros c Hc. assert (c = 0%nat) by lia. subst c. rewrite Er. cbn [ex_mp mp_intr mp_base_to_camera mp_image_observations nth]. rewrite V.
    split; [ apply ex_picture_perfect, I0 | apply ex_picture_front, I0 ]. }
  assert (U : exists c, (c < 1)%nat /\ usable (nth c (mp_intr ex_mp) intr0) (iso_mul (iso_inv (nth c (mp_base_to_camera ex_mp) iso_id)) iso_id) (nth c (mp_image_observations ex_mp) [])).
  { exists 0%nat. split; [ lia | ]. cbn [ex_mp mp_intr mp_base_to_camera mp_image_observations nth]. rewrite V. apply ex_picture_usable, I0. }
  assert (RR : rigid (mr_base_to_target r)) by (rewrite Er; apply rigid_id).
  exists sc_still, ex_mp, r, iso_id. cbv zeta.
  split; [ apply sc_still_honest | split; [ exact E | split; [ exact Sz | split; [ exact PC | split; [ apply rigid_id | split; [ exact RR | split; [ exact D | split; [ exact U | ] ] ] ] ] ] ] ].
  apply (mpnp_unique sc_still ex_mp r iso_id sc_still_honest E Sz PC rigid_id RR D U), Er.
Qed.

(** *** Static cameras, moving target *)
Definition ex_sp : static_problem :=
  SP [ex_k] [ex_mounts] [map ex_picture ex_mounts] iso_id [ex_camera] "wrist_to_target" "base_to_camera".
Lemma nth_pictures i : (i < 3)%nat -> nth i (map ex_picture ex_mounts) [] = ex_picture (nth i ex_mounts iso_id).
Proof. intros H. rewrite (nth_indep _ [] (ex_picture iso_id)) by exact H. apply map_nth. Qed.
Lemma ex_chosen : map (fun i => nth i ex_mounts iso_id) [0; 1; 2]%nat = ex_mounts.
Proof. reflexivity. Qed.
Lemma ex_axes : two_axes (motions_of (map (fun i => nth i ex_mounts iso_id) [0; 1; 2]%nat)).
Proof. rewrite ex_chosen. apply ex_two_axes; cbn [ex_mounts In]; auto. Qed.
Lemma ex_sp_unique : exists u solve cov p r C0 Z0,
  let n := List.length (sp_base_to_camera_guess p) in
  let k c := nth c (sp_intr p) intr0 in
  let wrist c i := nth i (nth c (sp_wrist_poses p) []) iso_id in
  let images c := List.length (nth c (sp_wrist_poses p) []) in
  let image c i := nth i (nth c (sp_image_observations p) []) [] in
  let seen C Z c i := iso_mul (iso_inv (C c)) (iso_mul (wrist c i) Z) in
  let found c := nth c (sr_base_to_camera r) iso_id in
  honest_blocks solve /\ optimizeStatic u solve cov p = Ok r /\ static_sizes p /\ plain_wrists p /\
  (forall c, (c < n)%nat -> rigid (C0 c)) /\ rigid Z0 /\
  (forall T, In T (sr_base_to_camera r) -> rigid T) /\ rigid (sr_wrist_to_target r) /\
  (forall c i, (c < n)%nat -> (i < images c)%nat ->
     perfect_image (k c) (seen C0 Z0 c i) (image c i) /\
     all_in_front (seen found (sr_wrist_to_target r) c i) (image c i)) /\
  (exists c chosen, (c < n)%nat /\
     (forall i, In i chosen -> (i < images c)%nat /\ usable (k c) (seen C0 Z0 c i) (image c i)) /\
     two_axes (motions_of (map (wrist c) chosen))) /\
  (forall c, (c < n)%nat -> exists i, (i < images c)%nat /\ usable (k c) (seen C0 Z0 c i) (image c i)) /\
  sr_final_cost_per_obs r = 0.
Proof.
  assert (Sz : static_sizes ex_sp).
  { repeat split. cbn [ex_sp sp_base_to_camera_guess]. intros c Hc. cbn in Hc. assert (c = 0%nat) by lia. subst c. reflexivity. }
  assert (PW : plain_wrists ex_sp).
  { intros c W HW. destruct c as [|[|c]]; cbn [ex_sp sp_wrist_poses nth] in HW; try contradiction. apply ex_mounts_plain, HW. }
  assert (PG : guesses_plain_static ex_sp) by (split; [ apply id_plain | intros T [<-|[]]; apply ex_camera_plain ]).
  assert (AU : all_cameras_used ex_sp).
  { intros c Hc. cbn in Hc. assert (c = 0%nat) by lia. subst c. exists 0%nat. eexists. apply in_static_views.
    split; [ cbn; lia | split; [ cbn; lia | ] ]. left. reflexivity. }
  destruct (static_succeeds ex_sp (fun _ _ => 0) sc_still ex_cov_oracle Sz AU) as [r E]; try reflexivity.
  { cbn; lia. } { apply ex_oracle_sym. }
  destruct (static_unmoved ex_sp (fun _ _ => 0) sc_still ex_cov_oracle r Sz PG sc_still_still E) as [Ez Ec].
  cbn [ex_sp sp_wrist_to_target_guess sp_base_to_camera_guess] in Ez, Ec.
  pose (C0 := fun _ : nat => ex_camera).
  assert (V : forall i, (i < 3)%nat -> usable ex_k (ex_view (nth i ex_mounts iso_id)) (nth i (map ex_picture ex_mounts) []) /\
    perfect_image ex_k (ex_view (nth i ex_mounts iso_id)) (nth i (map ex_picture ex_mounts) []) /\
    all_in_front (ex_view (nth i ex_mounts iso_id)) (nth i (map ex_picture ex_mounts) [])).
  { intros i Hi. rewrite nth_pictures by exact Hi. pose proof (in_mounts i Hi) as I.
    split; [ apply ex_picture_usable, I | split; [ apply ex_picture_perfect, I | apply ex_picture_front, I ] ]. }
  exists (fun _ _ => 0), sc_still, ex_cov_oracle, ex_sp, r, C0, iso_id. cbv zeta.
  assert (H1 : forall c, (c < List.length (sp_base_to_camera_guess ex_sp))%nat -> rigid (C0 c)) by (intros; apply rigid_trans).
  assert (H2 : forall T, In T (sr_base_to_camera r) -> rigid T) by (rewrite Ec; intros T [<-|[]]; apply rigid_trans).
  assert (H3 : rigid (sr_wrist_to_target r)) by (rewrite Ez; apply rigid_id).
  assert (H4 : forall c i, (c < List.length (sp_base_to_camera_guess ex_sp))%nat -> (i < List.length (nth c (sp_wrist_poses ex_sp) []))%nat ->
     perfect_image (nth c (sp_intr ex_sp) intr0) (iso_mul (iso_inv (C0 c)) (iso_mul (nth i (nth c (sp_wrist_poses ex_sp) []) iso_id) iso_id)) (nth i (nth c (sp_image_observations ex_sp) []) []) /\
     all_in_front (iso_mul (iso_inv (nth c (sr_base_to_camera r) iso_id)) (iso_mul (nth i (nth c (sp_wrist_poses ex_sp) []) iso_id) (sr_wrist_to_target r))) (nth i (nth c (sp_image_observations ex_sp) []) [])).
  { intros c i Hc Hi. cbn in Hc. assert (c = 0%nat) by lia. subst c. rewrite Ec, Ez.
    cbn [ex_sp sp_intr sp_wrist_poses sp_image_observations nth] in *. split; apply (V i Hi). }
  assert (H5 : exists c chosen, (c < List.length (sp_base_to_camera_guess ex_sp))%nat /\
     (forall i, In i chosen -> (i < List.length (nth c (sp_wrist_poses ex_sp) []))%nat /\ usable (nth c (sp_intr ex_sp) intr0) (iso_mul (iso_inv (C0 c)) (iso_mul (nth i (nth c (sp_wrist_poses ex_sp) []) iso_id) iso_id)) (nth i (nth c (sp_image_observations ex_sp) []) [])) /\
     two_axes (motions_of (map (fun i => nth i (nth c (sp_wrist_poses ex_sp) []) iso_id) chosen))).
  { exists 0%nat, [0; 1; 2]%nat. split; [ cbn; lia | split; [ | apply ex_axes ] ].
    intros i Hi. assert (L : (i < 3)%nat) by (cbn [In] in Hi; lia). split; [ exact L | ].
    cbn [ex_sp sp_intr sp_wrist_poses sp_image_observations nth]. apply (V i L). }
  assert (H6 : forall c, (c < List.length (sp_base_to_camera_guess ex_sp))%nat -> exists i, (i < List.length (nth c (sp_wrist_poses ex_sp) []))%nat /\ usable (nth c (sp_intr ex_sp) intr0) (iso_mul (iso_inv (C0 c)) (iso_mul (nth i (nth c (sp_wrist_poses ex_sp) []) iso_id) iso_id)) (nth i (nth c (sp_image_observations ex_sp) []) [])).
  { intros c Hc. cbn in Hc. assert (c = 0%nat) by lia. subst c. exists 0%nat. split; [ cbn; lia | ].
    cbn [ex_sp sp_intr sp_wrist_poses sp_image_observations nth]. apply (V 0%nat); lia. }
  split; [ apply sc_still_honest | split; [ exact E | split; [ exact Sz | split; [ exact PW | split; [ exact H1 | split; [ apply rigid_id | split; [ exact H2 | split; [ exact H3 | split; [ exact H4 | split; [ exact H5 | split; [ exact H6 | ] ] ] ] ] ] ] ] ] ] ].
  apply (static_unique (fun _ _ => 0) sc_still ex_cov_oracle ex_sp r C0 iso_id sc_still_honest E Sz PW H1 rigid_id H2 H3 H4 H5 H6).
  split; [ exact Ec | exact Ez ].
Qed.

(** *** Wrist only *)
Definition ex_wp : wrist_problem := WP [ex_k] ex_mounts [map ex_picture ex_mounts] iso_id [ex_camera].
Lemma ex_wp_unique : exists solve p r K0 Z0,
  let n := List.length (wp_base_to_camera_guess p) in
  let k c := nth c (wp_intr p) intr0 in
  let wrist i := nth i (wp_wrist_poses p) iso_id in
  let image c i := nth i (nth c (wp_image_observations p) []) [] in
  let truth c := iso_mul K0 (nth c (wp_base_to_camera_guess p) iso_id) in
  let found c := nth c (wr_base_to_camera r) iso_id in
  let seen C Z c i := iso_mul (iso_inv (C c)) (iso_mul (wrist i) Z) in
  honest_blocks solve /\ optimizeWrist solve p = Ok r /\ wrist_sizes p /\
  (forall T, In T (wp_wrist_poses p) -> plain_pose T) /\ (forall T, In T (wp_base_to_camera_guess p) -> plain_pose T) /\
  rigid K0 /\ rigid Z0 /\
  (forall T, In T (wr_base_to_camera r) -> rigid T) /\ rigid (wr_wrist_to_target r) /\
  (forall c i, (c < n)%nat -> (i < List.length (wp_wrist_poses p))%nat ->
     perfect_image (k c) (seen truth Z0 c i) (image c i) /\
     all_in_front (seen found (wr_wrist_to_target r) c i) (image c i)) /\
  (exists c chosen, (c < n)%nat /\
     (forall i, In i chosen -> (i < List.length (wp_wrist_poses p))%nat /\ usable (k c) (seen truth Z0 c i) (image c i)) /\
     two_axes (motions_of (map wrist chosen))) /\
  wr_final_cost_per_obs r = 0.
Proof.
  assert (Sz : wrist_sizes ex_wp).
  { repeat split. cbn [ex_wp wp_base_to_camera_guess]. intros c Hc. cbn in Hc. assert (c = 0%nat) by lia. subst c. reflexivity. }
  assert (PW : forall T, In T (wp_wrist_poses ex_wp) -> plain_pose T) by (intros T HT; apply ex_mounts_plain, HT).
  assert (PC : forall T, In T (wp_base_to_camera_guess ex_wp) -> plain_pose T) by (intros T [<-|[]]; apply ex_camera_plain).
  destruct (wrist_right ex_wp Sz PW PC) as (blocks & _ & Res). destruct (Res sc_still) as (_ & _ & r & _ & E & _).
  destruct (wrist_unmoved ex_wp sc_still r sc_still_still id_plain E) as [Ec Ez]. cbn [ex_wp wp_base_to_camera_guess wp_wrist_to_target_guess] in Ec, Ez.
  assert (V : forall i, (i < 3)%nat -> usable ex_k (ex_view (nth i ex_mounts iso_id)) (nth i (map ex_picture ex_mounts) []) /\
    perfect_image ex_k (ex_view (nth i ex_mounts iso_id)) (nth i (map ex_picture ex_mounts) []) /\
    all_in_front (ex_view (nth i ex_mounts iso_id)) (nth i (map ex_picture ex_mounts) [])).
  { intros i Hi. rewrite nth_pictures by exact Hi. pose proof (in_mounts i Hi) as I.
    split; [ apply ex_picture_usable, I | split; [ apply ex_picture_perfect, I | apply ex_picture_front, I ] ]. }
  exists sc_still, ex_wp, r, iso_id, iso_id. cbv zeta.
  assert (H2 : forall T, In T (wr_base_to_camera r) -> rigid T) by (rewrite Ec; intros T [<-|[]]; apply rigid_trans).
  assert (H3 : rigid (wr_wrist_to_target r)) by (rewrite Ez; apply rigid_id).
  assert (H4 : forall c i, (c < List.length (wp_base_to_camera_guess ex_wp))%nat -> (i < List.length (wp_wrist_poses ex_wp))%nat ->
     perfect_image (nth c (wp_intr ex_wp) intr0) (iso_mul (iso_inv (iso_mul iso_id (nth c (wp_base_to_camera_guess ex_wp) iso_id))) (iso_mul (nth i (wp_wrist_poses ex_wp) iso_id) iso_id)) (nth i (nth c (wp_image_observations ex_wp) []) []) /\
     all_in_front (iso_mul (iso_inv (nth c (wr_base_to_camera r) iso_id)) (iso_mul (nth i (wp_wrist_poses ex_wp) iso_id) (wr_wrist_to_target r))) (nth i (nth c (wp_image_observations ex_wp) []) [])).
  { intros c i Hc Hi. cbn in Hc. assert (c = 0%nat) by lia. subst c. rewrite Ec, Ez, iso_mul_id_l.
    cbn [ex_wp wp_intr wp_wrist_poses wp_image_observations wp_base_to_camera_guess nth] in *. split; apply (V i Hi). }
  assert (H5 : exists c chosen, (c < List.length (wp_base_to_camera_guess ex_wp))%nat /\
     (forall i, In i chosen -> (i < List.length (wp_wrist_poses ex_wp))%nat /\ usable (nth c (wp_intr ex_wp) intr0) (iso_mul (iso_inv (iso_mul iso_id (nth c (wp_base_to_camera_guess ex_wp) iso_id))) (iso_mul (nth i (wp_wrist_poses ex_wp) iso_id) iso_id)) (nth i (nth c (wp_image_observations ex_wp) []) [])) /\
     two_axes (motions_of (map (fun i => nth i (wp_wrist_poses ex_wp) iso_id) chosen))).
  { exists 0%nat, [0; 1; 2]%nat. split; [ cbn; lia | split; [ | apply ex_axes ] ].
    intros i Hi. assert (L : (i < 3)%nat) by (cbn [In] in Hi; lia). split; [ exact L | ].
    rewrite iso_mul_id_l. cbn [ex_wp wp_intr wp_wrist_poses wp_image_observations wp_base_to_camera_guess nth]. apply (V i L). }
  split; [ apply sc_still_honest | split; [ exact E | split; [ exact Sz | split; [ exact PW | split; [ exact PC | split; [ apply rigid_id | split; [ apply rigid_id | split; [ exact H2 | split; [ exact H3 | split; [ exact H4 | split; [ exact H5 | ] ] ] ] ] ] ] ] ] ] ].
  apply (wrist_unique sc_still ex_wp r iso_id iso_id sc_still_honest E Sz PW PC rigid_id rigid_id H2 H3 H4 H5).
  split; [ | exact Ez ]. rewrite Ec. cbn [ex_wp wp_base_to_camera_guess List.length seq map nth]. rewrite iso_mul_id_l. reflexivity.
Qed.

(** *** Cameras only: two cameras, both see the one target *)
Definition ex_op : only_problem := OP true [ex_k; ex_k] [[ex_picture iso_id]; [ex_picture iso_id]] [iso_id] [ex_camera; ex_camera].
Lemma ex_op_unique : exists solve p r C0 B0,
  let n := List.length (op_base_to_camera_guess p) in
  let images := List.length (op_base_to_target_guess p) in
  let k c := nth c (op_intr p) intr0 in
  let image c i := nth i (nth c (op_image_observations p) []) [] in
  let camera c := nth c (or_base_to_camera r) iso_id in
  let target i := nth i (or_base_to_target r) iso_id in
  let seen (C B : nat -> iso) c i := iso_mul (iso_inv (C c)) (B i) in
  let good c i := (c < n)%nat /\ (i < images)%nat /\ usable (k c) (seen C0 B0 c i) (image c i) in
  honest_blocks solve /\ leaves_others solve /\ optimizeOnly solve p = Ok r /\ only_sizes p /\
  op_fix_first_camera p = true /\ nth_error (op_base_to_camera_guess p) 0 = Some (C0 0%nat) /\ plain_pose (C0 0%nat) /\
  op_base_to_target_guess p <> [] /\
  (forall c, (c < n)%nat -> rigid (C0 c)) /\ (forall i, (i < images)%nat -> rigid (B0 i)) /\
  (forall T, In T (or_base_to_camera r) -> rigid T) /\ (forall T, In T (or_base_to_target r) -> rigid T) /\
  (forall c i, (c < n)%nat -> (i < images)%nat ->
    perfect_image (k c) (seen C0 B0 c i) (image c i) /\ all_in_front (seen camera target c i) (image c i)) /\
  linked_camera good 0 1 /\ linked_image good 0 0 /\ (1 < n)%nat.
Proof.
  assert (Sz : only_sizes ex_op).
  { repeat split. cbn [ex_op op_base_to_camera_guess]. intros c Hc. cbn in Hc. assert (c = 0 \/ c = 1)%nat as [->| ->] by lia; reflexivity. }
  destruct (only_returns ex_op sc_still Sz) as (r & E & _).
  destruct (only_unmoved ex_op sc_still r Sz sc_still_still) as [Ec Et]; try exact E; try discriminate.
  { intros T [<-|[<-|[]]]; apply ex_camera_plain. } { intros T [<-|[]]; apply id_plain. }
  cbn [ex_op op_base_to_camera_guess op_base_to_target_guess] in Ec, Et.
  assert (V : iso_mul (iso_inv ex_camera) iso_id = ex_view iso_id) by (unfold ex_view; rewrite iso_mul_id_l; reflexivity).
  assert (I0 : In iso_id ex_mounts) by (left; reflexivity).
  exists sc_still, ex_op, r, (fun _ => ex_camera), (fun _ => iso_id). cbv zeta.
  assert (G : forall c, (c < 2)%nat -> (c < 2)%nat /\ (0 < 1)%nat /\ usable (nth c (op_intr ex_op) intr0)
     (iso_mul (iso_inv ex_camera) iso_id) (nth 0 (nth c (op_image_observations ex_op) []) [])).
  { intros c Hc. split; [ exact Hc | split; [ lia | ] ]. rewrite V.
    assert (c = 0 \/ c = 1)%nat as [->| ->] by lia; apply (ex_picture_usable _ I0). }
  split; [ apply sc_still_honest | split; [ apply sc_still_leaves | split; [ exact E | split; [ exact Sz | ] ] ] ].
  split; [ reflexivity | split; [ reflexivity | split; [ apply ex_camera_plain | split; [ discriminate | ] ] ] ].
  split; [ intros; apply rigid_trans | split; [ intros; apply rigid_id | ] ].
  rewrite Ec, Et. split; [ intros T [<-|[<-|[]]]; apply rigid_trans | split; [ intros T [<-|[]]; apply rigid_id | ] ].
  split; [ | split; [ | split ] ].
  - intros c i Hc Hi. cbn in Hc, Hi. assert (i = 0%nat) by lia. subst i.
    assert (c = 0 \/ c = 1)%nat as [->| ->] by lia; cbn [ex_op op_intr op_image_observations nth]; rewrite V;
      (split; [ apply (ex_picture_perfect _ I0) | apply (ex_picture_front _ I0) ]).
  - apply (lc_step _ _ 1 0); [ apply (li_step _ _ 0 0) | ]; [ apply lc_start | apply (G 0%nat); lia | apply (G 1%nat); lia ].
  - apply (li_step _ _ 0 0); [ apply lc_start | apply (G 0%nat); lia ].
  - cbn. lia.
Qed.
