(** Hand-eye calibration of simulated observations *)
From Coq Require Import Reals ZArith List Lia Lra Psatz.
From Verif.Base Require Import Geom Outcome Matrix.
From Verif.Model Require Import Pose Solver HandEye Simulation.
From Verif.Spec Require Import PinHole Frames PnpSpec UniqueSpec TargetSpec SimulationSpec.
From Verif.Proofs Require Import GeomLemmas TargetProofs HandEyeProofs UniqueLemmas UniqueProofs SimulationProofs.
Import ListNotations.
Local Open Scope R_scope.

(** ** The truth has no residual *)

Lemma Forall2_in_r {A B} (P : A -> B -> Prop) l m b : Forall2 P l m -> In b m -> exists a, In a l /\ P a b.
Proof.
  induction 1 as [ | a b' l m H F IH]; intros Hb; [ destruct Hb | ]. destruct Hb as [ -> | Hb ].
  - exists a. split; [ left; reflexivity | exact H ].
  - destruct (IH Hb) as (a' & Ha & Hp). exists a'. split; [ right; exact Ha | exact Hp ].
Qed.
Lemma Forall2_in_l {A B} (P : A -> B -> Prop) l m a : Forall2 P l m -> In a l -> exists b, In b m /\ P a b.
Proof.
  induction 1 as [ | a' b l m H F IH]; intros Ha; [ destruct Ha | ]. destruct Ha as [ -> | Ha ].
  - exists b. split; [ left; reflexivity | exact H ].
  - destruct (IH Ha) as (b' & Hb & Hp). exists b'. split; [ right; exact Hb | exact Hp ].
Qed.
Lemma truth_zero2 cam tgt gens T X B os pc pt : rigid B -> rigid T -> rigid X ->
  createObservations2D cam tgt gens T X B = Ok os ->
  poseCalToEigen pc = iso_inv X -> poseCalToEigen pt = iso_mul B T ->
  forall o c, In o os -> In c (correspondence_set o) -> plain_pose (to_camera_mount o) ->
  cost2D3D (mk_obs_cost (in_image c) (iso_inv (to_camera_mount o)) (to_target_mount o) (in_target c)) (sim_intr cam) (pc, pt) = [0; 0].
Proof.
  intros HB HT HX E Hc Ht o c Ho Hcs PP. destruct (create2_ok cam tgt gens T X B HB HT HX) as (os' & E' & F). rewrite E in E'. injection E' as <-.
  destruct (Forall2_in_r _ _ _ _ F Ho) as (P & HP & TK & S). apply (seen_in _ _ _ _ S) in Hcs. destruct Hcs as (p & Hp & V & ->).
  cbn [in_image in_target]. apply cost2D3D_zero with (cam := X); [ exact PP | | exact HX | exact Hc | ].
  - destruct TK as [-> _]. apply (plain_id_tr vzero).
  - rewrite Ht, (taken_pose T X B P o HB HT TK). symmetry. apply project_pinhole. exact (proj1 V).
Qed.
Lemma truth_zero3 tgt gens T X B pc pt : rigid B -> rigid T -> rigid X ->
  poseCalToEigen pc = iso_inv X -> poseCalToEigen pt = iso_mul B T ->
  forall o c, In o (createObservations3D tgt gens T X B) -> In c (correspondence_set o) -> plain_pose (to_camera_mount o) ->
  cost3D3D (mk_obs_cost (in_image c) (iso_inv (to_camera_mount o)) (to_target_mount o) (in_target c)) (pc, pt) = [0; 0; 0].
Proof.
  intros HB HT HX Hc Ht o c Ho Hcs PP. pose proof (create3_ok tgt gens T X B HB HT HX) as F.
  destruct (Forall2_in_r _ _ _ _ F Ho) as (P & HP & TK & S). rewrite S in Hcs. apply in_map_iff in Hcs. destruct Hcs as (p & <- & Hp).
  cbn [in_image in_target]. apply cost3D3D_zero with (cam := X); [ exact PP | | exact HX | exact Hc | ].
  - destruct TK as [-> _]. apply (plain_id_tr vzero).
  - rewrite Ht, (taken_pose T X B P o HB HT TK). reflexivity.
Qed.

(** ** Two axes, in terms of the camera poses *)

Lemma rodrigues a u v : mvec (aa_matrix a u) v =
  vadd (vadd (vscale (cos a) v) (vscale (sin a) (cross u v))) (vscale ((1 - cos a) * dot u v) u).
Proof.
  destruct u as [a1 a2 a3], v as [b1 b2 b3]. unfold aa_matrix, mvec, vadd, vscale, cross, dot; apply vec3_ext; cbn [vx vy vz m00 m01 m02 m10 m11 m12 m20 m21 m22]; ring.
Qed.
Lemma mvec_vscale A k v : mvec A (vscale k v) = vscale k (mvec A v).
Proof. unfold mvec, vscale; apply vec3_ext; cbn [vx vy vz]; ring. Qed.
Lemma mat_ext A B : (forall v, mvec A v = mvec B v) -> A = B.
Proof.
  intros H. apply (mat_agree _ _ unitX unitY unitZ); [ unfold dot, cross, unitX, unitY, unitZ; cbn [vx vy vz]; lra | apply H .. ].
Qed.
Lemma conj_aa Q a u : is_rot Q -> mmul (mmul Q (aa_matrix a u)) (mT Q) = aa_matrix a (mvec Q u).
Proof.
  intros HQ. apply mat_ext. intros v. rewrite !mvec_mmul, rodrigues.
  assert (v = mvec Q (mvec (mT Q) v)) as Ev by (rewrite <- mvec_mmul, is_rot_right, mvec_I by exact HQ; reflexivity).
  set (w := mvec (mT Q) v) in *. rewrite Ev, rodrigues. rewrite rot_dot by exact HQ. rewrite <- rot_cross by exact HQ.
  rewrite !mvec_vadd, !mvec_vscale. reflexivity.
Qed.
Lemma turns_conj X M u : rigid X -> turns_about M u -> turns_about (iso_mul (iso_mul X M) (iso_inv X)) (mvec (lin X) u).
Proof.
  intros HX (U & a & E & Sa). split; [ rewrite rot_dot by exact HX; exact U | ]. exists a. split; [ | exact Sa ].
  unfold iso_mul, iso_inv; cbn [lin]. rewrite E. apply conj_aa. exact HX.
Qed.
Lemma in_motions l A : In A (motions_of l) <-> exists W W', In W l /\ In W' l /\ A = iso_mul W (iso_inv W').
Proof.
  unfold motions_of. rewrite in_flat_map. split.
  - intros (W & HW & H). apply in_map_iff in H. destruct H as (W' & <- & HW'). exists W, W'. auto.
  - intros (W & W' & HW & HW' & ->). exists W. split; [ exact HW | ]. apply in_map_iff. exists W'. auto.
Qed.
Lemma taken_mounts {I} T X B P (o : observation I) : rigid B -> rigid T -> rigid X -> rigid P -> taken T X B P o ->
  mounts o = iso_mul (iso_mul X (iso_inv P)) (iso_inv (iso_mul B T)).
Proof.
  intros HB HT HX HP [E1 E2]. unfold mounts. rewrite E1, iso_mul_id_r.
  assert (to_camera_mount o = iso_mul (iso_mul (iso_mul B T) P) (iso_inv X)) as ->
    by (rewrite <- E2, iso_mul_assoc, iso_inv_r, iso_mul_id_r by exact HX; reflexivity).
  assert (rigid (iso_mul B T)) by (apply rigid_mul; assumption).
  rewrite iso_inv_mul by (apply rigid_mul; assumption). rewrite iso_inv_inv by exact HX.
  rewrite iso_inv_mul by assumption. symmetry. apply iso_mul_assoc.
Qed.
Lemma mounts_motion X S P P' : rigid X -> rigid S -> rigid P -> rigid P' ->
  iso_mul (iso_mul (iso_mul X (iso_inv P)) (iso_inv S)) (iso_inv (iso_mul (iso_mul X (iso_inv P')) (iso_inv S))) =
  iso_mul (iso_mul X (iso_mul (iso_inv P) (iso_inv (iso_inv P')))) (iso_inv X).
Proof.
  intros HX HS HP HP'. rewrite (iso_inv_mul (iso_mul X (iso_inv P'))) by (apply rigid_mul; [ exact HX | apply rigid_inv; exact HP' ]).
  rewrite (iso_inv_mul X) by exact HX. rewrite iso_inv_inv by exact HS.
  rewrite !iso_mul_assoc. rewrite <- (iso_mul_assoc (iso_inv S) S). rewrite iso_inv_l by exact HS. rewrite iso_mul_id_l. reflexivity.
Qed.
Lemma two_axes_taken {I} T X B Ps (os : list (observation I)) : rigid B -> rigid T -> rigid X -> (forall P, In P Ps -> rigid P) ->
  Forall2 (fun P o => taken T X B P o) Ps os -> two_axes (motions_of (map iso_inv Ps)) -> two_axes (motions_of (map mounts os)).
Proof.
  intros HB HT HX HP F (A & A' & u & v & HA & HA' & TA & TA' & N).
  assert (rigid (iso_mul B T)) as HBT by (apply rigid_mul; assumption).
  assert (forall M, In M (motions_of (map iso_inv Ps)) -> In (iso_mul (iso_mul X M) (iso_inv X)) (motions_of (map mounts os))) as K.
  { intros M HM. apply in_motions in HM. destruct HM as (W & W' & HW & HW' & ->). apply in_map_iff in HW, HW'.
    destruct HW as (P & <- & HIn), HW' as (P' & <- & HIn'). destruct (Forall2_in_l _ _ _ _ F HIn) as (o & Ho & To).
    destruct (Forall2_in_l _ _ _ _ F HIn') as (o' & Ho' & To'). apply in_motions. exists (mounts o), (mounts o').
    split; [ apply in_map; exact Ho | ]. split; [ apply in_map; exact Ho' | ].
    rewrite (taken_mounts T X B P o), (taken_mounts T X B P' o') by auto. symmetry. apply mounts_motion; auto. }
  exists (iso_mul (iso_mul X A) (iso_inv X)), (iso_mul (iso_mul X A') (iso_inv X)), (mvec (lin X) u), (mvec (lin X) v).
  split; [ apply K; exact HA | ]. split; [ apply K; exact HA' | ]. split; [ apply turns_conj; assumption | ]. split; [ apply turns_conj; assumption | ].
  rewrite <- rot_cross by exact HX. intros E. apply N. apply (f_equal (mvec (mT (lin X)))) in E.
  rewrite <- mvec_mmul in E. destruct HX as [HX _]. rewrite HX, mvec_I in E. rewrite E. unfold mvec, vzero; cbn [vx vy vz]; apply vec3_ext; cbn [vx vy vz]; ring.
Qed.

(** ** A result without error is the truth *)

Lemma sim_unique2 u solve cov cam tgt gens T X B os p r :
  rigid B -> rigid T -> rigid X -> (forall P, In P (proposals gens T) -> rigid P) ->
  createObservations2D cam tgt gens T X B = Ok os -> h2_observations p = os -> h2_intr p = sim_intr cam ->
  fx (sim_intr cam) <> 0 -> fy (sim_intr cam) <> 0 -> plain_obs os ->
  honest solve -> optimize2D3D u solve cov p = Ok r ->
  rigid (he_camera_mount_to_camera r) -> rigid (he_target_mount_to_target r) ->
  (forall P, In P (proposals gens T) -> ~ edge_on (iso_inv P) /\
     forall q, In q (sim_points tgt) -> visible cam (iso_app (iso_inv P) q) -> in_front (iso_app (iso_inv P) q)) ->
  (forall o, In o os -> four_flat_points (map in_target (correspondence_set o)) /\
     all_in_front (target_in_camera (he_camera_mount_to_camera r) (to_camera_mount o) (to_target_mount o)
                     (he_target_mount_to_target r)) (correspondence_set o)) ->
  two_axes (motions_of (map iso_inv (proposals gens T))) ->
  (he_final_cost_per_obs r = 0 <-> he_camera_mount_to_camera r = X /\ he_target_mount_to_target r = iso_mul B T).
Proof.
  intros HB HT HX HP E EO EI Fx Fy PL Ho Er R1 R2 HPs HOs TA.
  destruct (create2_ok cam tgt gens T X B HB HT HX) as (os' & E' & F). rewrite E in E'. injection E' as <-. subst os.
  apply (he_unique2 u solve cov p r X (iso_mul B T)); try assumption.
  - rewrite EI; exact Fx.
  - rewrite EI; exact Fy.
  - apply rigid_mul; assumption.
  - intros o HIn. destruct (HOs o HIn) as [FF AF]. destruct (Forall2_in_r _ _ _ _ F HIn) as (P & HIP & TK & S).
    rewrite (taken_pose T X B P o HB HT TK). destruct (HPs P HIP) as [NE FR].
    split; [ exact FF | ]. split; [ exact NE | ]. split; [ | exact AF ]. rewrite EI. apply (seen_perfect _ _ _ _ S). exact FR.
  - apply (two_axes_taken T X B (proposals gens T)); try assumption. clear - F. induction F as [ | P o l m HH F IH]; constructor; [ exact (proj1 HH) | exact IH ].
Qed.
Lemma sim_unique3 u solve cov tgt gens T X B p r :
  rigid B -> rigid T -> rigid X -> (forall P, In P (proposals gens T) -> rigid P) ->
  h3_observations p = createObservations3D tgt gens T X B -> plain_obs (h3_observations p) ->
  honest solve -> optimize3D3D u solve cov p = Ok r ->
  rigid (he_camera_mount_to_camera r) -> rigid (he_target_mount_to_target r) ->
  not_on_a_line (sim_points tgt) ->
  two_axes (motions_of (map iso_inv (proposals gens T))) ->
  (he_final_cost_per_obs r = 0 <-> he_camera_mount_to_camera r = X /\ he_target_mount_to_target r = iso_mul B T).
Proof.
  intros HB HT HX HP EO PL Ho Er R1 R2 NL TA. pose proof (create3_ok tgt gens T X B HB HT HX) as F. rewrite <- EO in F.
  apply (he_unique3 u solve cov p r X (iso_mul B T)); try assumption.
  - apply rigid_mul; assumption.
  - intros o HIn. destruct (Forall2_in_r _ _ _ _ F HIn) as (P & HIP & TK & S).
    rewrite (taken_pose T X B P o HB HT TK), S. split; [ | apply measured_perfect ].
    unfold measured. rewrite map_map. cbn [in_target]. rewrite map_id. exact NL.
  - apply (two_axes_taken T X B (proposals gens T)); try assumption. clear - F. induction F as [ | P o l m HH F IH]; constructor; [ exact (proj1 HH) | exact IH ].
Qed.
