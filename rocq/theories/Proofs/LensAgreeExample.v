(** An intrinsic calibration and pose estimates of the same two pictures, for C109. *)
From Coq Require Import Reals Lra Psatz Arith Lia String List Permutation.
From Verif.Base Require Import Geom Outcome Matrix.
From Verif.Model Require Import Pose Covariance Solver HandEye BlockSolver Pnp Intrinsic.
From Verif.Spec Require Import CovarianceSpec PinHole Frames HomographySpec PnpSpec ReportSpec SameDataSpec IntrinsicSpec UniqueSpec IntrinsicUniqueSpec LensChoicesSpec LensAgreeSpec RestartSpec.
From Verif.Proofs Require Import GeomLemmas PoseProofs CovarianceProofs HandEyeProofs PnpProofs UniqueLemmas UniqueProofs
  IntrinsicProofs UniqueExamples IntrinsicUnique IntrinsicUniqueExample SameDataProofs LensChoicesProofs LensChoicesExample LensAgreeProofs.
From Verif.Proofs Require SameDataExample.
Import ListNotations.
Local Open Scope R_scope.

(** A solver that goes to a given pose. *)
Definition pnp_goes_to (T : iso) : solver pnp_vars := fun blocks x0 =>
  (pnp_start T, Summary true (half_squares (flat_map (fun f => f x0) blocks)) (half_squares (flat_map (fun f => f (pnp_start T)) blocks))).
Lemma pnp_goes_to_honest T : honest (pnp_goes_to T).
Proof. intros blocks x0. reflexivity. Qed.
Lemma pnp_at u T p : rigid T -> pnp_correspondences p <> [] ->
  exists r, optimizePnP u (pnp_goes_to T) ex_cov_oracle p = Ok r /\ pnp_converged r = true /\ pnp_camera_to_target r = T.
Proof.
  intros RT NE. destruct (pnp_succeeds2 u (pnp_goes_to T) ex_cov_oracle p) as [r Hr]; [ reflexivity | reflexivity | apply ex_oracle_sym | exact NE | ].
  exists r. split; [ exact Hr | ]. rewrite optimizePnP_unfold in Hr. apply pnp_finish_fields in Hr as (x & s & H1 & H2 & H3 & _).
  injection H1 as <- <-. split; [ rewrite H2; reflexivity | rewrite H3; apply pnp_start_stored, RT ].
Qed.
Definition la_solves : pnp_solvers := fun i => pnp_goes_to (sc_tilt i).
Lemma sc_picture i : (i < 2)%nat -> picture sc_views i = ex_image2 ex_k (sc_tilt i).
Proof. destruct i as [|[|i]]; intros H; [ reflexivity | reflexivity | lia ]. Qed.
Lemma sc_all_front i : (i < 2)%nat -> all_in_front (sc_tilt i) (picture sc_views i).
Proof.
  intros Hi. rewrite sc_picture by exact Hi. intros c Hc. apply in_map_iff in Hc as (v & <- & Hv). apply sc_front, Hv.
Qed.
Lemma two {A} (P : nat -> A -> Prop) : (forall i, (i < 2)%nat -> exists a, P i a) -> exists f, forall i, (i < 2)%nat -> P i (f i).
Proof.
  intros H. destruct (H 0%nat ltac:(lia)) as [a Ha], (H 1%nat ltac:(lia)) as [b Hb].
  exists (fun i => match i with 0%nat => a | _ => b end). intros [|[|i]] Hi; [ exact Ha | exact Hb | lia ].
Qed.
Lemma la_run u : exists r, optimizeIntrinsic u la_solves (fun _ => ex_cov_oracle) sc_finds ex_cov_oracle sc_views = Ok r.
Proof.
  apply intrinsic_succeeds; [ cbn; lia | | reflexivity | reflexivity | apply ex_oracle_sym ]. intros i Hi. change (i < 2)%nat in Hi.
  destruct (pnp_at u (sc_tilt i) (image_pnp sc_views (picture sc_views i)) (sc_rigid i)) as (r & E & C & P).
  { cbn [pnp_correspondences image_pnp]. rewrite sc_picture by exact Hi. discriminate. }
  exists (sc_tilt i), (picture sc_views i), r. split; [ apply nth_error_nth'; exact Hi | ]. split; [ exact E | split; [ exact C | exact P ] ].
Qed.
Lemma sc_best_pose i : (i < 2)%nat -> best_pose ex_k (picture sc_views i) (sc_tilt i).
Proof.
  intros Hi. split; [ apply sc_rigid | ]. split; [ intros c Hc; apply front_pos, (sc_all_front i Hi c Hc) | ]. intros T' _ _.
  replace (pose_error ex_k (picture sc_views i) (sc_tilt i)) with 0; [ apply SameDataExample.half_squares_pos | ].
  symmetry. apply half_squares_all_zero. intros e He. apply in_flat_map in He as (c & Hc & He).
  rewrite sc_picture in Hc by exact Hi. apply in_map_iff in Hc as (v & <- & Hv). unfold pixel_error in He. cbn in He. destruct He as [<-|[<-|[]]]; ring.
Qed.

Lemma la_example u : exists r rs,
  honest_blocks sc_finds /\ (forall blocks start, ends_at_best sc_views (fst (sc_finds blocks start))) /\
  optimizeIntrinsic u la_solves (fun _ => ex_cov_oracle) sc_finds ex_cov_oracle sc_views = Ok r /\ ir_distortions r = [0; 0; 0; 0; 0] /\
  target_located sc_views (ir_intrinsics r) rs /\
  (forall i, (i < number_of_images sc_views)%nat ->
     all_in_front (pnp_camera_to_target (rs i)) (picture sc_views i) /\
     best_pose (ir_intrinsics r) (picture sc_views i) (pnp_camera_to_target (rs i))).
Proof.
  destruct (la_run u) as [r Hr].
  destruct (intrinsic_result_right u la_solves (fun _ => ex_cov_oracle) sc_views) as (blocks & Len & Eval & Res).
  destruct (Res _ _ r Hr) as (_ & _ & start & m' & s & Es & _ & _ & _ & _ & Fk & Fd & _ & _).
  unfold sc_finds, goes_to in Es. injection Es as <- _.
  destruct (memory_camera 2 ex_k no_distortion sc_tilt) as [MC ML].
  change (List.length (ip_image_observations sc_views)) with 2%nat in *. rewrite MC in Fk.
  destruct (two (fun i q => optimizePnP u (la_solves i) ex_cov_oracle (PnP2 ex_k (picture sc_views i) iso_id "target") = Ok q /\
                            pnp_camera_to_target q = sc_tilt i)) as [rs Hrs].
  { intros i Hi. destruct (pnp_at u (sc_tilt i) (PnP2 ex_k (picture sc_views i) iso_id "target") (sc_rigid i)) as (q & E & _ & P).
    - cbn [pnp_correspondences]. rewrite sc_picture by exact Hi. discriminate.
    - exists q. split; [ exact E | exact P ]. }
  exists r, rs. split; [ apply goes_to_honest | ]. split; [ intros bs st; apply (memory_best sc_views); [ apply sc_plain | apply sc_best ] | ].
  split; [ exact Hr | ]. split; [ rewrite Fd, ML; reflexivity | ]. rewrite Fk. split.
  - intros i Hi. change (i < 2)%nat in Hi. destruct (Hrs i Hi) as [E _].
    exists u, (la_solves i), ex_cov_oracle, iso_id, "target"%string. split; [ apply pnp_goes_to_honest | exact E ].
  - intros i Hi. change (i < 2)%nat in Hi. destruct (Hrs i Hi) as [_ ->].
    split; [ apply sc_all_front, Hi | apply sc_best_pose, Hi ].
Qed.
Lemma la_initial u : exists r rs,
  honest_start_blocks sc_finds /\ (forall i, honest (la_solves i)) /\
  optimizeIntrinsic u la_solves (fun _ => ex_cov_oracle) sc_finds ex_cov_oracle sc_views = Ok r /\
  (forall i, (i < number_of_images sc_views)%nat ->
     optimizePnP u (la_solves i) ex_cov_oracle (image_pnp sc_views (picture sc_views i)) = Ok (rs i) /\
     pnp_converged (rs i) = true /\
     plain_pose (pnp_camera_to_target (rs i)) /\ all_in_front (pnp_camera_to_target (rs i)) (picture sc_views i)).
Proof.
  destruct (la_run u) as [r Hr].
  destruct (two (fun i q => optimizePnP u (la_solves i) ex_cov_oracle (image_pnp sc_views (picture sc_views i)) = Ok q /\
                            pnp_converged q = true /\ pnp_camera_to_target q = sc_tilt i)) as [rs Hrs].
  { intros i Hi. apply pnp_at; [ apply sc_rigid | ]. cbn [pnp_correspondences image_pnp]. rewrite sc_picture by exact Hi. discriminate. }
  exists r, rs. split; [ intros bs m; reflexivity | ]. split; [ intros i; apply pnp_goes_to_honest | ]. split; [ exact Hr | ].
  intros i Hi. change (i < 2)%nat in Hi. destruct (Hrs i Hi) as (E & C & ->).
  split; [ exact E | split; [ exact C | split; [ apply sc_plain | apply sc_all_front, Hi ] ] ].
Qed.
