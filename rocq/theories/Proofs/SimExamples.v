(** Concrete scenes for C86, C87, C91 and C95. *)
From Coq Require Import Reals ZArith Lra Psatz Lia String List.
From Verif.Base Require Import Geom Outcome Matrix.
From Verif.Model Require Import Pose Covariance Solver HandEye DhChain Kinematic Simulation.
From Verif.Spec Require Import CovarianceSpec PinHole Frames TargetSpec HomographySpec OracleSpec PnpSpec UniqueSpec KinSpec KinReport KinUniqueSpec SimulationSpec.
From Verif.Proofs Require Import GeomLemmas RotLemmas AngleAxisLemmas PoseProofs CovarianceProofs HandEyeProofs DhProofs UniqueLemmas UniqueProofs UniqueExamples SimulationProofs SimHandEyeProofs SimPoseProofs SimKinematicProofs.
Import ListNotations.
Local Open Scope R_scope.

Definition ex_board : sim_target := mk_target 2 2 1.
Lemma ex_board_points : sim_points ex_board = [V3 0 1 0; V3 1 1 0; V3 0 0 0; V3 1 0 0].
Proof.
  unfold ex_board. rewrite target_points by (cbn; lia). unfold layout, TargetSpec.grid_point. cbn [seq flat_map map app INR Nat.sub].
  repeat (apply (f_equal2 (@cons vec3)); [ apply vec3_ext; cbn [vx vy vz]; lra | ]). reflexivity.
Qed.
Lemma ex_board_in p : In p (sim_points ex_board) -> In p ex_square.
Proof. rewrite ex_board_points. unfold ex_square. cbn. intuition (subst; auto). Qed.
Lemma ex_board_flat : four_flat_points (sim_points ex_board).
Proof.
  rewrite ex_board_points. exists (V3 0 0 0), (V3 1 0 0), (V3 0 1 0), (V3 1 1 0). unfold general_position, not_collinear.
  cbn [In vx vy vz]. repeat split; auto 6; lra.
Qed.
Lemma ex_board_not_on_a_line : not_on_a_line (sim_points ex_board).
Proof.
  rewrite ex_board_points. exists (V3 0 0 0), (V3 1 0 0), (V3 0 1 0). cbn [In]. repeat split; auto 6.
  unfold triangle. intros E. injection E. cbn [vx vy vz]. lra.
Qed.
(** Everything in a cone of about 28 degrees is visible *)
Lemma kinect_sees x y z : 0 < z -> - z <= 5 / 2 * x <= z -> - z <= 5 / 2 * y <= z -> visible makeKinectCamera (V3 x y z).
Proof.
  intros Hz Hx Hy. unfold visible, pinhole, makeKinectCamera. cbn [sim_intr sim_width sim_height fx fy cx cy px py vx vy vz].
  assert (forall t, - z <= 5 / 2 * t <= z -> - (2 / 5) <= t / z <= 2 / 5) as K.
  { intros t Ht. assert (t = (t / z) * z) as E by (field; lra). split; apply (Rmult_le_reg_r z); try assumption; rewrite <- E; lra. }
  pose proof (K x Hx) as Kx. pose proof (K y Hy) as Ky. unfold Rdiv in *.
  split; [ exact Hz | ]. split; nra.
Qed.

(** Three cameras that look at the board from different directions *)
Definition ex_look (W : iso) : iso := iso_inv (target_in_camera ex_camera iso_id W iso_id).
Definition ex_gens : list pose_generator := [fun _ => map ex_look ex_mounts].
Lemma ex_gens_proposals T : proposals ex_gens T = map ex_look ex_mounts.
Proof. unfold proposals, ex_gens. cbn [flat_map]. apply app_nil_r. Qed.
Lemma ex_mounts_rigid W : In W ex_mounts -> rigid W.
Proof. intros H. apply plain_rigid, ex_mounts_plain, H. Qed.
Lemma ex_tic_rigid W : In W ex_mounts -> rigid (target_in_camera ex_camera iso_id W iso_id).
Proof. intros H. rewrite ex_mount_pose. exact (ex_mounts_rigid W H). Qed.
Lemma ex_look_rigid W : In W ex_mounts -> rigid (ex_look W).
Proof. intros H. apply rigid_inv, ex_tic_rigid, H. Qed.
Lemma ex_look_inv W : In W ex_mounts -> iso_inv (ex_look W) = target_in_camera ex_camera iso_id W iso_id.
Proof. intros H. apply iso_inv_inv, ex_tic_rigid, H. Qed.
Lemma ex_look_plain W : In W ex_mounts -> plain_pose (ex_look W).
Proof.
  intros H. apply plain_inv. rewrite ex_mount_pose. destruct (ex_mounts_plain W H) as [R K]. split; [ exact R | exact K ].
Qed.
Lemma ex_visible W v : In W ex_mounts -> In v ex_square -> visible makeKinectCamera (iso_app (target_in_camera ex_camera iso_id W iso_id) v).
Proof.
  intros HW Hv. rewrite ex_mount_pose. destruct third_bounds as [C S].
  assert (V : exists a b, v = V3 a b 0 /\ 0 <= a <= 1 /\ 0 <= b <= 1).
  { destruct Hv as [<-|[<-|[<-|[<-|[]]]]]; do 2 eexists; (split; [ reflexivity | lra ]). }
  destruct V as (a & b & -> & Ba & Bb).
  destruct HW as [<-|[<-|[<-|[]]]]; unfold iso_app, iso_id, ex_turn, iso_rot, aa_matrix, unitX, unitY, vadd, mvec, vzero, I3;
    cbn [lin tr vx vy vz m00 m01 m02 m10 m11 m12 m20 m21 m22]; rewrite ?C; apply kinect_sees; nra.
Qed.
Lemma ex_seen_all W cs : In W ex_mounts -> seen makeKinectCamera (iso_inv (ex_look W)) (sim_points ex_board) cs -> map in_target cs = sim_points ex_board.
Proof.
  intros HW S. assert (ex_look W = iso_mul (ex_look W) iso_id) as E0 by (symmetry; apply iso_mul_id_r).
  destruct (correspondences_all (ex_look W) iso_id makeKinectCamera ex_board) as (cs' & _ & S' & M).
  - intros p Hp. rewrite iso_mul_id_r, ex_look_inv by exact HW. apply ex_visible; [ exact HW | apply ex_board_in; exact Hp ].
  - rewrite iso_mul_id_r in S'. rewrite (seen_unique _ _ _ _ _ S S'). exact M.
Qed.
Lemma ex_two_looks T : two_axes (motions_of (map iso_inv (proposals ex_gens T))).
Proof.
  rewrite ex_gens_proposals, map_map.
  rewrite (map_ext_in _ (fun W => target_in_camera ex_camera iso_id W iso_id)) by (intros; apply ex_look_inv; assumption).
  assert (two_axes (motions_of ex_mounts)) as (A & A' & u & v & HA & HA' & TA & TA' & N) by (apply ex_two_axes; cbn; auto).
  assert (forall M, In M (motions_of ex_mounts) -> exists M', In M' (motions_of (map (fun W => target_in_camera ex_camera iso_id W iso_id) ex_mounts)) /\ lin M' = lin M) as K.
  { intros M HM. apply in_motions in HM. destruct HM as (W & W' & HW & HW' & ->).
    eexists. split; [ apply in_motions; do 2 eexists; split; [ apply in_map; exact HW | split; [ apply in_map; exact HW' | reflexivity ] ] | ].
    rewrite !ex_mount_pose. reflexivity. }
  destruct (K A HA) as (M & HM & LM), (K A' HA') as (M' & HM' & LM'). exists M, M', u, v.
  split; [ exact HM | ]. split; [ exact HM' | ]. split; [ | split; [ | exact N ] ].
  - destruct TA as (U & a & L & Sa). split; [ exact U | ]. exists a. rewrite LM. auto.
  - destruct TA' as (U & a & L & Sa). split; [ exact U | ]. exists a. rewrite LM'. auto.
Qed.
Lemma ex_taken_mount {I} P (o : observation I) : taken iso_id iso_id iso_id P o -> to_camera_mount o = P.
Proof. intros [_ E]. rewrite iso_mul_id_r, !iso_mul_id_l in E. exact E. Qed.
Lemma front_visible T p : visible makeKinectCamera (iso_app T p) -> forall W v, In W ex_mounts -> In v ex_square ->
  in_front (iso_app (target_in_camera ex_camera iso_id W iso_id) v).
Proof. intros _ W v. apply ex_mounts_front. Qed.

Lemma ex_sim2 : exists u solve cov gens os p r,
  (forall P, In P (proposals gens iso_id) -> rigid P) /\
  createObservations2D makeKinectCamera ex_board gens iso_id iso_id iso_id = Ok os /\
  h2_observations p = os /\ h2_intr p = sim_intr makeKinectCamera /\ plain_obs os /\
  honest solve /\ optimize2D3D u solve cov p = Ok r /\
  rigid (he_camera_mount_to_camera r) /\ rigid (he_target_mount_to_target r) /\
  (forall P, In P (proposals gens iso_id) -> ~ edge_on (iso_inv P) /\
     forall q, In q (sim_points ex_board) -> visible makeKinectCamera (iso_app (iso_inv P) q) -> in_front (iso_app (iso_inv P) q)) /\
  (forall o, In o os -> four_flat_points (map in_target (correspondence_set o)) /\
     all_in_front (target_in_camera (he_camera_mount_to_camera r) (to_camera_mount o) (to_target_mount o)
                     (he_target_mount_to_target r)) (correspondence_set o)) /\
  two_axes (motions_of (map iso_inv (proposals gens iso_id))) /\ List.length os = 3%nat.
Proof.
  destruct (create2_ok makeKinectCamera ex_board ex_gens iso_id iso_id iso_id rigid_id rigid_id rigid_id) as (os & E & F).
  set (p := HEP2 os (sim_intr makeKinectCamera) iso_id iso_id default_he_labels).
  assert (forall o, In o os -> exists W, In W ex_mounts /\ to_camera_mount o = ex_look W /\ to_target_mount o = iso_id /\
    map in_target (correspondence_set o) = sim_points ex_board) as K.
  { intros o Ho. destruct (Forall2_in_r _ _ _ _ F Ho) as (P & HP & TK & S). rewrite ex_gens_proposals in HP. apply in_map_iff in HP.
    destruct HP as (W & <- & HW). exists W. split; [ exact HW | ]. split; [ exact (ex_taken_mount _ _ TK) | ]. split; [ exact (proj1 TK) | ].
    exact (ex_seen_all W _ HW S). }
  assert (plain_obs os) as PL.
  { intros o Ho. destruct (K o Ho) as (W & HW & -> & -> & _). split; [ apply ex_look_plain, HW | apply (plain_id_tr vzero) ]. }
  assert (forall o, In o os -> all_in_front (target_in_camera iso_id (to_camera_mount o) (to_target_mount o) iso_id) (correspondence_set o)) as AF.
  { intros o Ho c Hc. destruct (K o Ho) as (W & HW & E1 & E2 & M). rewrite E1, E2. unfold target_in_camera. rewrite !iso_mul_id_r, ex_look_inv by exact HW.
    apply ex_mounts_front; [ exact HW | ]. apply ex_board_in. rewrite <- M. apply in_map. exact Hc. }
  assert (List.length os = 3%nat) as L.
  { assert (List.length (proposals ex_gens iso_id) = List.length os) as <- by (clear - F; induction F; cbn; congruence). reflexivity. }
  destruct (accept2 (fun _ _ => 0) sc_stay ex_cov_oracle p) as (r & Er); try reflexivity; try exact PL.
  - apply ex_oracle_lists.
  - apply ex_oracle_sym.
  - apply (plain_id_tr vzero).
  - apply (plain_id_tr vzero).
  - cbn [p h2_observations]. destruct os as [ | o os']; [ discriminate L | ]. destruct (K o (or_introl eq_refl)) as (W & _ & _ & _ & M).
    rewrite ex_board_points in M. unfold all_pairs. cbn [flat_map]. destruct (correspondence_set o); discriminate.
  - intros o c Ho Hc. apply front_pos. exact (AF o Ho c Hc).
  - destruct (unmoved2 _ _ _ _ _ sc_stay_stays Er) as [E1 E2]; [ apply (plain_id_tr vzero) | apply (plain_id_tr vzero) | ].
    cbn [p h2_camera_guess h2_target_guess] in E1, E2.
    exists (fun _ _ => 0), sc_stay, ex_cov_oracle, ex_gens, os, p, r. rewrite E1, E2.
    split. { intros P HP. rewrite ex_gens_proposals in HP. apply in_map_iff in HP. destruct HP as (W & <- & HW). apply ex_look_rigid, HW. }
    split; [ exact E | ]. split; [ reflexivity | ]. split; [ reflexivity | ]. split; [ exact PL | ]. split; [ apply sc_stay_honest | ].
    split; [ exact Er | ]. split; [ apply rigid_id | ]. split; [ apply rigid_id | ]. split.
    { intros P HP. rewrite ex_gens_proposals in HP. apply in_map_iff in HP. destruct HP as (W & <- & HW). rewrite ex_look_inv by exact HW.
      split; [ apply ex_mounts_not_edge, HW | ]. intros q Hq _. apply ex_mounts_front; [ exact HW | apply ex_board_in, Hq ]. }
    split. { intros o Ho. split; [ destruct (K o Ho) as (W & _ & _ & _ & ->); apply ex_board_flat | exact (AF o Ho) ]. }
    split; [ apply ex_two_looks | exact L ].
Qed.
Lemma ex_sim3 : exists u solve cov gens p r,
  (forall P, In P (proposals gens iso_id) -> rigid P) /\
  h3_observations p = createObservations3D ex_board gens iso_id iso_id iso_id /\ plain_obs (h3_observations p) /\
  honest solve /\ optimize3D3D u solve cov p = Ok r /\
  rigid (he_camera_mount_to_camera r) /\ rigid (he_target_mount_to_target r) /\
  not_on_a_line (sim_points ex_board) /\
  two_axes (motions_of (map iso_inv (proposals gens iso_id))) /\ List.length (h3_observations p) = 3%nat.
Proof.
  pose proof (create3_ok ex_board ex_gens iso_id iso_id iso_id rigid_id rigid_id rigid_id) as F.
  set (os := createObservations3D ex_board ex_gens iso_id iso_id iso_id) in *.
  set (p := HEP3 os iso_id iso_id default_he_labels).
  assert (plain_obs os) as PL.
  { intros o Ho. destruct (Forall2_in_r _ _ _ _ F Ho) as (P & HP & TK & S). rewrite ex_gens_proposals in HP. apply in_map_iff in HP.
    destruct HP as (W & <- & HW). rewrite (ex_taken_mount _ _ TK), (proj1 TK). split; [ apply ex_look_plain, HW | apply (plain_id_tr vzero) ]. }
  assert (List.length os = 3%nat) as L.
  { assert (List.length (proposals ex_gens iso_id) = List.length os) as <- by (clear - F; induction F; cbn; congruence). reflexivity. }
  destruct (accept3 (fun _ _ => 0) sc_stay ex_cov_oracle p) as (r & Er); try reflexivity.
  - apply ex_oracle_lists.
  - apply ex_oracle_sym.
  - cbn [p h3_observations]. destruct os as [ | o os']; [ discriminate L | ]. destruct (Forall2_in_r _ _ _ o F (or_introl eq_refl)) as (P & _ & _ & S).
    unfold all_pairs. cbn [flat_map]. rewrite S, ex_board_points. discriminate.
  - destruct (unmoved3 _ _ _ _ _ sc_stay_stays Er) as [E1 E2]; [ apply (plain_id_tr vzero) | apply (plain_id_tr vzero) | ].
    cbn [p h3_camera_guess h3_target_guess] in E1, E2.
    exists (fun _ _ => 0), sc_stay, ex_cov_oracle, ex_gens, p, r. rewrite E1, E2.
    split. { intros P HP. rewrite ex_gens_proposals in HP. apply in_map_iff in HP. destruct HP as (W & <- & HW). apply ex_look_rigid, HW. }
    split; [ reflexivity | ]. split; [ exact PL | ]. split; [ apply sc_stay_honest | ]. split; [ exact Er | ]. split; [ apply rigid_id | ]. split; [ apply rigid_id | ].
    split; [ apply ex_board_not_on_a_line | ]. split; [ apply ex_two_looks | exact L ].
Qed.
Lemma ex_board_seen : exists cs, getCorrespondences2D iso_id (target_in_camera ex_camera iso_id (ex_turn unitX) iso_id) makeKinectCamera ex_board true = Ok cs /\
  List.length cs = 4%nat.
Proof.
  destruct (correspondences_all iso_id (target_in_camera ex_camera iso_id (ex_turn unitX) iso_id) makeKinectCamera ex_board) as (cs & E & _ & M).
  - intros p Hp. rewrite iso_inv_id, iso_mul_id_l. apply ex_visible; [ cbn; auto | apply ex_board_in, Hp ].
  - exists cs. split; [ exact E | ]. apply (f_equal (@List.length vec3)) in M. rewrite map_length, ex_board_points in M. exact M.
Qed.
Lemma ex_board_missed : getCorrespondences2D iso_id ex_camera makeKinectCamera ex_board true = Throw RuntimeError.
Proof.
  apply correspondences_missed. exists (V3 0 1 0). split; [ rewrite ex_board_points; left; reflexivity | ].
  intros [H _]. rewrite iso_inv_id, iso_mul_id_l in H. unfold ex_camera, iso_trans, iso_app, mvec, I3, vadd in H; cbn in H. lra.
Qed.

(** A board on a turntable in front of a camera that stands still *)
Definition ex_still : dh_chain := DHChain [] iso_id.
Definition ex_turntable : dh_chain := DHChain [mk_dh_transform (V4 0 0 0 0) REVOLUTE "turntable" 0] iso_id.
Definition ex_opposite : iso := Iso (M3 1 0 0 0 (-1) 0 0 0 (-1)) (V3 0 0 4).
Lemma ex_opposite_rigid : rigid ex_opposite.
Proof. split; [ unfold ex_opposite, mmul, mT, I3; cbn; f_equal; ring | unfold ex_opposite, det; cbn; ring ]. Qed.
Lemma ex_still_usable : usable_chain ex_still.
Proof. intros t []. Qed.
Lemma ex_turntable_usable : usable_chain ex_turntable.
Proof. intros t [<- | []]. cbn. pose proof PI_RGT_0. split; [ lra | discriminate ]. Qed.
Lemma ex_still_tip q F : within_limits ex_still q -> getFK ex_still q (no_offsets (dof ex_still)) = Ok F -> F = iso_id.
Proof. intros [L _]. destruct q; [ | discriminate L ]. cbn. intros [= <-]. reflexivity. Qed.
Lemma ex_turntable_tip a F : getFK ex_turntable [a] (no_offsets (dof ex_turntable)) = Ok F -> F = Iso (aa_matrix a unitZ) vzero.
Proof.
  unfold getFK. cbn [ex_turntable dof transforms List.length Nat.ltb Nat.leb no_offsets rows seq foldM row4 bind at_ nth_error idx createRelativeTransform jtype mk_dh_transform params ent add4 e0 e1 e2 e3 base_offset].
  intros [= <-]. rewrite !iso_mul_id_l. replace (0 + 0 + a) with a by ring. rewrite !Rplus_0_r.
  assert (iso_trans (V3 0 0 0) = iso_id) as -> by reflexivity. rewrite iso_mul_id_l, iso_mul_id_r.
  rewrite aa_matrix_0. change (Iso I3 vzero) with iso_id. unfold iso_rot. change (Iso I3 vzero) with iso_id. apply iso_mul_id_r.
Qed.
Lemma ex_turntable_view : always_in_view makeKinectCamera ex_board ex_still ex_turntable iso_id iso_id ex_opposite.
Proof.
  intros qc qt cp tp [Wc Wt] (Fc & Ft & [T1 T2] & -> & ->). apply (ex_still_tip qc Fc Wc) in T1. subst Fc.
  destruct Wt as [Lt _]. destruct qt as [ | a [ | ? ?]]; try discriminate Lt. apply ex_turntable_tip in T2. subst Ft.
  rewrite !iso_mul_id_r, iso_inv_id, iso_mul_id_l. pose proof (sin2_cos2 a) as SC. unfold Rsqr in SC. set (s := sin a) in *. set (c := cos a) in *.
  assert (lin (iso_mul ex_opposite (Iso (aa_matrix a unitZ) vzero)) = M3 c (- s) 0 (- s) (- c) 0 0 0 (-1)) as EL.
  { unfold ex_opposite, iso_mul, aa_matrix, unitZ, mmul; fold s c; cbn [lin m00 m01 m02 m10 m11 m12 m20 m21 m22 vx vy vz]. f_equal; ring. }
  assert (tr (iso_mul ex_opposite (Iso (aa_matrix a unitZ) vzero)) = V3 0 0 4) as ET.
  { unfold ex_opposite, iso_mul, mvec, vadd, vzero; cbn [lin tr m00 m01 m02 m10 m11 m12 m20 m21 m22 vx vy vz]. f_equal; ring. }
  split.
  - unfold faces. rewrite EL. unfold iso_id, I3, col2, dot; cbn [lin m00 m01 m02 m10 m11 m12 m20 m21 m22 vx vy vz]. lra.
  - intros p Hp. apply ex_board_in in Hp.
    assert (V : exists x y, p = V3 x y 0 /\ 0 <= x <= 1 /\ 0 <= y <= 1).
    { destruct Hp as [<-|[<-|[<-|[<-|[]]]]]; do 2 eexists; (split; [ reflexivity | lra ]). }
    destruct V as (x & y & -> & Bx & By). unfold iso_app. rewrite EL, ET. unfold mvec, vadd; cbn [m00 m01 m02 m10 m11 m12 m20 m21 m22 vx vy vz].
    match goal with |- visible _ (V3 ?u ?v ?w) => replace u with (c * x - s * y) by ring; replace v with (- (s * x + c * y)) by ring; replace w with 4 by ring end.
    assert ((c * x - s * y) * (c * x - s * y) + (s * x + c * y) * (s * x + c * y) <= 2) as Q.
    { replace ((c * x - s * y) * (c * x - s * y) + (s * x + c * y) * (s * x + c * y)) with ((s * s + c * c) * (x * x + y * y)) by ring. rewrite SC. nra. }
    set (u := c * x - s * y) in *. set (v := s * x + c * y) in *. clearbody u v. apply kinect_sees; [ lra | | ]; nra.
Qed.
Lemma ex_board_nonempty : sim_points ex_board <> [].
Proof. rewrite ex_board_points. discriminate. Qed.

(** The robot and the positioner of the tests *)
Lemma abb_usable seed : usable_chain (createABBIRB2400 seed).
Proof. intros t H. cbn in H. pose proof PI_RGT_0. repeat (destruct H as [<- | H]; [ cbn; split; [ lra | discriminate ] | ]). destruct H. Qed.
Lemma positioner_usable seed : usable_chain (createTwoAxisPositioner seed).
Proof. intros t H. cbn in H. pose proof PI_RGT_0. repeat (destruct H as [<- | H]; [ cbn; split; [ lra | discriminate ] | ]). destruct H. Qed.
Lemma positioner_base seed : rigid (base_offset (createTwoAxisPositioner seed)).
Proof.
  cbn [createTwoAxisPositioner base_offset]. apply rigid_mul; [ apply rigid_mul; [ exact rigid_id | apply rigid_trans ] | ].
  apply aa_matrix_rot. unfold unitX, dot; cbn; ring.
Qed.
Lemma chain3_does_not_fit : exists camera_chain target_chain C T B, 
  usable_chain camera_chain /\ usable_chain target_chain /\ rigid C /\ rigid T /\ rigid B /\
  forall (G : Type) (seeded : nat -> G) uniform static n os st, in_bounds uniform -> 
  chainObservations3D seeded uniform camera_chain target_chain C T B ex_board n static = Ok (os, st) ->
  forall o, In o os -> ~ perfect_points (target_in_camera C (to_camera_mount o) (to_target_mount o) T) (correspondence_set o).
Proof.
  exists (createABBIRB2400 0), (createTwoAxisPositioner 0), iso_id, iso_id, (iso_trans (V3 1 0 0)).
  split; [ apply abb_usable | ]. split; [ apply positioner_usable | ]. split; [ exact rigid_id | ]. split; [ exact rigid_id | ]. split; [ apply rigid_trans | ].
  intros G seeded uniform static n os st HU E o Ho PP.
  apply (chain3_fits seeded uniform _ _ _ _ _ (abb_usable 0) (positioner_usable 0) HU rigid_id (positioner_base 0) rigid_id rigid_id (rigid_trans _) ex_board n static os st o ex_board_not_on_a_line E Ho) in PP.
  apply (f_equal tr), (f_equal vx) in PP. cbn in PP. lra.
Qed.
Definition ex_halves (a b : R) (g : unit) : R * unit := ((a + b) / 2, tt).
Lemma ex_halves_fits : in_bounds ex_halves /\ stretches ex_halves.
Proof. split; [ intros a b g H; cbn; lra | intros a b []; unfold ex_halves; cbn; f_equal; lra ]. Qed.
