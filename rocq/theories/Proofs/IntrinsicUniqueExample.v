(** Concrete data for C96. *)
From Coq Require Import Reals Lra Psatz Arith Lia String List.
From Verif.Base Require Import Geom Outcome Matrix.
From Verif.Model Require Import Pose Covariance Solver HandEye BlockSolver Pnp Intrinsic.
From Verif.Spec Require Import CovarianceSpec PinHole Frames HomographySpec PnpSpec ReportSpec IntrinsicSpec UniqueSpec IntrinsicUniqueSpec.
From Verif.Proofs Require Import GeomLemmas RotLemmas AngleAxisLemmas PoseProofs CovarianceProofs HandEyeProofs PnpProofs UniqueLemmas IntrinsicProofs UniqueExamples IntrinsicUnique.
Import ListNotations.
Local Open Scope R_scope.

(** A square, tilted about the x axis in one picture and about the y axis in the other. *)
Definition sc_tilt (i : nat) : iso :=
  Iso (aa_matrix (PI / 4) (match i with 0%nat => unitX | _ => unitY end)) (V3 0 0 3).
Definition sc_views : intrinsic_problem :=
  IP [ex_image2 ex_k (sc_tilt 0); ex_image2 ex_k (sc_tilt 1)] (Intr 450 450 300 200) "pose".
(** The same square straight ahead, twice. *)
Definition sc_straight : intrinsic_problem :=
  IP [ex_image2 ex_k ex_ahead; ex_image2 ex_k ex_ahead] (Intr 450 450 300 200) "pose".
Definition sc_finds : block_solver := goes_to (memory 2 ex_k no_distortion sc_tilt).

Lemma sc_unit i : dot (match i with 0%nat => unitX | _ => unitY end) (match i with 0%nat => unitX | _ => unitY end) = 1.
Proof. destruct i; unfold dot, unitX, unitY; cbn [vx vy vz]; ring. Qed.
Lemma sc_rigid i : rigid (sc_tilt i).
Proof. apply aa_matrix_rot, sc_unit. Qed.
Lemma sc_plain i : plain_pose (sc_tilt i).
Proof.
  split; [ apply sc_rigid | right ]. eexists; eexists; split; [ apply (sc_unit i) | ]. split; [ reflexivity | ].
  pose proof PI_RGT_0. pose proof PI2_1. pose proof DBL_EPS_small. split; nra.
Qed.
Lemma sc_half : 0 < sin (PI / 4) <= 1 /\ 0 < cos (PI / 4).
Proof.
  pose proof PI_RGT_0. split; [ split; [ apply sin_gt_0; lra | apply SIN_bound ] | apply cos_gt_0; lra ].
Qed.
Lemma sc_depth i v : In v ex_square -> 2 <= vz (iso_app (sc_tilt i) v).
Proof.
  intros Hv. destruct sc_half as [[S1 S2] C].
  cbn in Hv. destruct Hv as [<-|[<-|[<-|[<-|[]]]]]; destruct i; unfold iso_app, sc_tilt, mvec, vadd, aa_matrix, unitX, unitY;
    cbn [lin tr vx vy vz m00 m01 m02 m10 m11 m12 m20 m21 m22]; nra.
Qed.
Lemma sc_front i v : In v ex_square -> in_front (iso_app (sc_tilt i) v).
Proof.
  intros Hv. pose proof (sc_depth i v Hv). unfold in_front.
  assert (1 / 10 ^ 10 < 1) by (apply (Rmult_lt_reg_r (10 ^ 10)); [ lra | field_simplify; lra ]). lra.
Qed.
Lemma sc_not_edge_on i : ~ edge_on (sc_tilt i).
Proof.
  destruct sc_half as [[S1 S2] C]. unfold edge_on. destruct i; unfold dot, col2, sc_tilt, aa_matrix, unitX, unitY;
    cbn [lin tr vx vy vz m00 m01 m02 m10 m11 m12 m20 m21 m22]; nra.
Qed.
Lemma sc_images i cs : nth_error (ip_image_observations sc_views) i = Some cs -> cs = ex_image2 ex_k (sc_tilt i).
Proof. destruct i as [|[|i]]; cbn; [ congruence .. | destruct i; discriminate ]. Qed.
Lemma sc_perfect i cs : nth_error (ip_image_observations sc_views) i = Some cs -> perfect_image ex_k (sc_tilt i) cs.
Proof. intros H. rewrite (sc_images _ _ H). apply ex_image2_perfect. intros v. apply sc_front. Qed.
Lemma sc_determine : poses_determine_camera (map sc_tilt [0; 1]%nat).
Proof. destruct sc_half. apply (tilts_determine _ _ (PI / 4) (PI / 4)); try reflexivity; lra. Qed.
Lemma sc_good i : In i [0; 1]%nat -> exists cs, nth_error (ip_image_observations sc_views) i = Some cs /\
  rigid (sc_tilt i) /\ ~ edge_on (sc_tilt i) /\ four_flat_points (map in_target cs).
Proof.
  intros Hi. exists (ex_image2 ex_k (sc_tilt i)). split.
  - cbn in Hi. destruct Hi as [<-|[<-|[]]]; reflexivity.
  - rewrite ex_image2_targets. split; [ apply sc_rigid | split; [ apply sc_not_edge_on | apply ex_square_flat ] ].
Qed.
Lemma sc_pose i : (i < 2)%nat -> poseCalToEigen (read_pose (memory 2 ex_k no_distortion sc_tilt) i) = sc_tilt i.
Proof. intros H. rewrite memory_pose by lia. apply plain_stored, sc_plain. Qed.
Lemma sc_ends blocks start : ends_at_poses sc_views (fst (sc_finds blocks start)).
Proof.
  intros i cs E. cbn [sc_finds goes_to fst].
  assert (i < 2)%nat by (change 2%nat with (List.length (ip_image_observations sc_views)); apply nth_error_Some; congruence).
  cbv zeta. rewrite sc_pose by assumption. split; [ apply sc_rigid | ].
  rewrite (sc_images _ _ E). intros c Hc. apply in_map_iff in Hc as (v & <- & Hv). cbn [in_target]. pose proof (sc_depth i v Hv). lra.
Qed.
Lemma sc_located u p i : (forall cs, In cs (ip_image_observations p) -> cs <> []) -> (i < List.length (ip_image_observations p))%nat ->
  exists T, located u ex_solves (fun _ => ex_cov_oracle) p i T.
Proof.
  intros NE Hi. destruct (nth_error (ip_image_observations p) i) as [obs|] eqn:E; [ | apply nth_error_None in E; lia ].
  destruct (pnp_succeeds2 u (ex_solves i) ex_cov_oracle (image_pnp p obs)) as [r Hr];
    [ reflexivity | reflexivity | apply ex_oracle_sym | apply NE, (nth_error_In _ _ E) | ].
  exists (pnp_camera_to_target r), obs, r. split; [ exact E | split; [ exact Hr | split; [ | reflexivity ] ] ].
  rewrite optimizePnP_unfold in Hr. apply pnp_finish_fields in Hr as (x & s & H1 & H2 & _). rewrite H2. injection H1 as _ <-. reflexivity.
Qed.
Lemma sc_result u solve p : (0 < List.length (ip_image_observations p))%nat -> (forall cs, In cs (ip_image_observations p) -> cs <> []) ->
  exists r, optimizeIntrinsic u ex_solves (fun _ => ex_cov_oracle) solve ex_cov_oracle p = Ok r.
Proof.
  intros N NE. apply intrinsic_succeeds; [ exact N | intros i Hi; apply sc_located; assumption | reflexivity | reflexivity | apply ex_oracle_sym ].
Qed.

Lemma sc_example u : exists r,
  optimizeIntrinsic u ex_solves (fun _ => ex_cov_oracle) sc_finds ex_cov_oracle sc_views = Ok r /\
  honest_blocks sc_finds /\ (forall blocks start, ends_at_poses sc_views (fst (sc_finds blocks start))) /\
  (forall i cs, nth_error (ip_image_observations sc_views) i = Some cs -> perfect_image ex_k (sc_tilt i) cs) /\
  poses_determine_camera (map sc_tilt [0; 1]%nat) /\
  (forall i, In i [0; 1]%nat -> exists cs, nth_error (ip_image_observations sc_views) i = Some cs /\
     rigid (sc_tilt i) /\ ~ edge_on (sc_tilt i) /\ four_flat_points (map in_target cs)) /\
  ir_distortions r = [0; 0; 0; 0; 0] /\ ir_final_cost_per_obs r = 0 /\ ir_intrinsics r = ex_k.
Proof.
  destruct (sc_result u sc_finds sc_views) as [r Hr]; [ cbn; lia | cbn; intros cs [<-|[<-|[]]]; discriminate | ].
  exists r. split; [ exact Hr | ]. split; [ apply goes_to_honest | ]. split; [ apply sc_ends | ]. split; [ apply sc_perfect | ].
  split; [ apply sc_determine | ]. split; [ apply sc_good | ].
  destruct (intrinsic_result_right u ex_solves (fun _ => ex_cov_oracle) sc_views) as (blocks & Len & Eval & Res).
  destruct (Res _ _ r Hr) as (_ & _ & start & m' & s & Es & _ & _ & _ & _ & Fk & Fd & _ & Fc).
  unfold sc_finds, goes_to in Es. injection Es as <- <-. cbn [final_cost] in Fc.
  destruct (memory_camera 2 ex_k no_distortion sc_tilt) as [MC ML].
  change (List.length (ip_image_observations sc_views)) with 2%nat in *.
  split; [ rewrite Fd, ML; reflexivity | ]. split; [ | rewrite Fk; exact MC ].
  rewrite Fc, half_squares_all_zero; [ unfold Rdiv; ring | ].
  intros e He. apply in_flat_map in He as (b & Hb & He). apply In_nth_error in Hb as (j & Hj).
  assert (exists ix, nth_error (image_views sc_views (seq 0 2)) j = Some ix) as ((i & x) & Hv).
  { destruct (nth_error (image_views sc_views (seq 0 2)) j) as [ix|] eqn:Q; [ eauto | ]. apply nth_error_None in Q.
    assert (j < List.length blocks)%nat by (apply nth_error_Some; congruence). lia. }
  destruct (image_views_in sc_views i x (nth_error_In _ _ Hv)) as (cs & Hcs & Hx).
  pose proof (Eval (memory 2 ex_k no_distortion sc_tilt) j b i x Hj Hv) as Ev. cbv zeta in Ev.
  assert (i < 2)%nat by (change 2%nat with (List.length (ip_image_observations sc_views)); apply nth_error_Some; congruence).
  rewrite sc_pose in Ev by assumption. rewrite MC, ML in Ev.
  destruct (sc_perfect i cs Hcs x Hx) as [_ Im].
  rewrite Ev in He.
  - unfold lens_error in He. rewrite lens_none, <- Im in He. cbn in He. destruct He as [<-|[<-|[]]]; ring.
  - rewrite (sc_images _ _ Hcs) in Hx. apply in_map_iff in Hx as (v & <- & Hv'). cbn [in_target]. pose proof (sc_depth i v Hv'). lra.
Qed.

(** The straight pictures: no error, and twice the focal length. *)
Lemma sc_straight_parallel i cs : nth_error (ip_image_observations sc_straight) i = Some cs ->
  plain_pose ex_ahead /\ parallel_to_image ex_ahead /\ perfect_lens_image ex_k no_distortion ex_ahead cs.
Proof.
  intros E. assert (cs = ex_image2 ex_k ex_ahead) as -> by (destruct i as [|[|i]]; [ injection E as <-; reflexivity .. | destruct i; discriminate ]).
  split; [ split; [ apply ex_ahead_rigid | left; reflexivity ] | ]. split; [ split; reflexivity | ].
  intros c Hc. apply in_map_iff in Hc as (v & <- & Hv). cbn [in_target in_image]. rewrite lens_none.
  split; [ apply ex_square_z, Hv | split; [ apply ex_ahead_front, Hv | reflexivity ] ].
Qed.
Lemma sc_wrong u : exists solve r,
  honest_blocks solve /\ (forall blocks start, ends_at_poses sc_straight (fst (solve blocks start))) /\
  (forall i cs, nth_error (ip_image_observations sc_straight) i = Some cs ->
     perfect_image ex_k ex_ahead cs /\ rigid ex_ahead /\ ~ edge_on ex_ahead /\ four_flat_points (map in_target cs)) /\
  optimizeIntrinsic u ex_solves (fun _ => ex_cov_oracle) solve ex_cov_oracle sc_straight = Ok r /\
  ir_final_cost_per_obs r = 0 /\ ir_distortions r = [0; 0; 0; 0; 0] /\
  fx ex_k = 500 /\ fx (ir_intrinsics r) = 1000.
Proof.
  destruct (parallel_undetermined u ex_solves (fun _ => ex_cov_oracle) ex_cov_oracle sc_straight ex_k no_distortion (fun _ => ex_ahead) 2)
    as (solve & Hon & Ends & Res); [ lra | intros i cs E; exact (sc_straight_parallel i cs E) | ].
  destruct (sc_result u solve sc_straight) as [r Hr]; [ cbn; lia | cbn; intros cs [<-|[<-|[]]]; discriminate | ].
  exists solve, r. split; [ exact Hon | ]. split; [ exact Ends | ]. split.
  { intros i cs E. assert (cs = ex_image2 ex_k ex_ahead) as -> by (destruct i as [|[|i]]; [ injection E as <-; reflexivity .. | destruct i; discriminate ]).
    split; [ apply ex_image2_perfect; intros v; apply ex_ahead_front | ]. split; [ apply ex_ahead_rigid | ].
    split; [ apply ex_ahead_not_edge_on | ]. rewrite ex_image2_targets. apply ex_square_flat. }
  split; [ exact Hr | ]. destruct (Res r Hr) as (C & K & D). split; [ exact C | ]. split.
  - rewrite D. unfold no_distortion; cbn [d_k1 d_k2 d_p1 d_p2 d_k3]. rewrite !Rmult_0_r. reflexivity.
  - split; [ reflexivity | rewrite K; unfold ex_k; cbn [fx]; ring ].
Qed.
