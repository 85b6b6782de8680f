(** Proofs about the pictures of an intrinsic calibration described in two ways. *)
From Coq Require Import Reals Arith String List Permutation Lra Lia.
From Verif.Base Require Import Geom Outcome.
From Verif.Model Require Import Pose Covariance Solver HandEye BlockSolver Pnp Intrinsic.
From Verif.Spec Require Import Frames PinHole PnpSpec UniqueSpec SameDataSpec ToolsAgreeSpec RigChoicesSpec IntrinsicSpec LensChoicesSpec.
From Verif.Proofs Require Import GeomLemmas UniqueProofs SameDataProofs ToolsAgreeProofs RigChoicesProofs IntrinsicProofs.
Import ListNotations.
Local Open Scope R_scope.

Definition picture_error (k : intrinsics) (d : distortion) (T : iso) (cs : list (correspondence vec2)) : R :=
  half_squares (flat_map (lens_error k d T) cs).
Lemma lens_by_picture p k d T :
  lens_sum p k d T = sum_over (seq 0 (List.length (ip_image_observations p))) (fun i => picture_error k d (T i) (picture p i)).
Proof. unfold lens_sum. rewrite squares_sum. reflexivity. Qed.
Lemma lens_by_view p k d T :
  lens_sum p k d T =
  half_squares (flat_map (fun ix => lens_error k d (T (fst ix)) (snd ix)) (image_views p (seq 0 (List.length (ip_image_observations p))))).
Proof.
  unfold lens_sum, image_views. rewrite squares_flat, squares_sum. apply sum_eq. intros i _. unfold picture. rewrite flat_map_map. reflexivity.
Qed.

(** ** What is reported *)
Lemma lens_reported u psolve pcov solve cov p r :
  honest_blocks solve -> (forall blocks start, ends_at_best p (fst (solve blocks start))) ->
  optimizeIntrinsic u psolve pcov solve cov p = Ok r ->
  exists T, best_lens p (ir_intrinsics r) (lens_with (ir_distortions r)) T /\
    ir_final_cost_per_obs r = lens_sum p (ir_intrinsics r) (lens_with (ir_distortions r)) T /
      INR (2 * List.length (image_views p (seq 0 (List.length (ip_image_observations p))))).
Proof.
  intros Hon Best E. destruct (intrinsic_result_right u psolve pcov p) as (blocks & Len & Eval & Res).
  destruct (Res solve cov r E) as (_ & _ & start & m & s & Es & _ & _ & _ & _ & Fk & Fd & _ & Fc).
  set (n := List.length (ip_image_observations p)) in *.
  pose proof (Best blocks start) as B. rewrite Es in B. cbn [fst] in B. unfold ends_at_best in B. fold n in B. cbv zeta in B.
  assert (DL : lens_with (ir_distortions r) = lens_of (m n)) by (rewrite Fd; reflexivity).
  exists (fun i => poseCalToEigen (read_pose m i)). rewrite DL, Fk. split; [ exact B | ]. rewrite Fc. f_equal.
  specialize (Hon blocks start). rewrite Es in Hon. rewrite Hon, lens_by_view. fold n. f_equal. destruct B as [V _].
  assert (VV : forall i x, In (i, x) (image_views p (seq 0 n)) -> vz (iso_app (poseCalToEigen (read_pose m i)) (in_target x)) <> 0).
  { intros i x I. unfold image_views in I. apply in_flat_map in I as (i' & Hi & I). apply in_map_iff in I as (x' & [= -> ->] & I).
    apply in_seq in Hi. pose proof (proj2 (V i ltac:(unfold n in Hi; lia)) x I). lra. }
  clear -Len Eval VV. revert Len Eval VV. generalize (image_views p (seq 0 n)) as vs. induction blocks as [|b blocks IH]; intros vs Len Eval VV.
  - destruct vs; [ reflexivity | discriminate ].
  - destruct vs as [|[i x] vs]; [ discriminate | ]. cbn [flat_map]. f_equal.
    + apply (Eval m 0%nat b i x eq_refl eq_refl), VV. left. reflexivity.
    + apply IH; [ cbn in Len; lia | | intros i' x' I; apply VV; right; exact I ].
      intros m' j b' i' x' H1 H2. apply (Eval m' (S j) b' i' x' H1 H2).
Qed.

(** ** The same picture *)
Lemma lens_scaled m d s k l v : 0 < s -> 0 < vz v -> lens_project (resized_camera m d k) l (vscale s v) = resized m d (lens_project k l v).
Proof.
  intros Hs Hv. unfold lens_project. unfold vscale. cbn [vx vy vz].
  replace (s * vx v / (s * vz v)) with (vx v / vz v) by (field; lra).
  replace (s * vy v / (s * vz v)) with (vy v / vz v) by (field; lra).
  cbv zeta. unfold resized, resized_camera. cbn [px py fx fy cx cy]. f_equal; ring.
Qed.
Lemma picture_error_same s G m d k l cs cs' T : 0 < s -> rigid G -> same_picture s G m d cs cs' ->
  (forall c, In c cs -> 0 < vz (iso_app T (in_target c))) ->
  picture_error (resized_camera m d k) l (iso_mul (in_unit s T) G) cs' = m * m * picture_error k l T cs.
Proof.
  intros Hs HG (cs1 & Pl & F) V. unfold picture_error. rewrite <- (half_squares_perm _ _ _ Pl).
  apply (half_squares_scaled _ _ _ _ _ _ F). intros a b Ia (E & Em). unfold lens_error. cbv zeta.
  rewrite E, pose_seen, lens_scaled, Em, !half2 by (assumption || apply V, Ia). unfold resized. cbn [px py]. field.
Qed.
Lemma resized_back m d k : m <> 0 -> exists k0, k = resized_camera m d k0.
Proof.
  intros Hm. exists (Intr (fx k / m) (fy k / m) ((cx k - px d) / m) ((cy k - py d) / m)). destruct k as [a b c e].
  unfold resized_camera. cbn [fx fy cx cy]. f_equal; field; exact Hm.
Qed.

Section Related.
  Variables (h : picture_choices) (p p' : intrinsic_problem).
  Hypothesis Hh : sensible_pictures h.
  Hypothesis Sm : same_pictures h p p'.
  Definition restated (T T' : nat -> iso) : Prop := forall i, (i < List.length (ip_image_observations p))%nat ->
    T' i = iso_mul (in_unit (pic_unit h i) (T (pic_was h i))) (pic_target h i).
  Lemma restated_view T T' : restated T T' -> (in_view_of_lens p' T' <-> in_view_of_lens p T).
  Proof.
    intros Q. destruct Sm as (En & Rn & S). destruct Hh as [HU _]. split; intros V i Hi.
    - assert (I : In i (map (pic_was h) (seq 0 (List.length (ip_image_observations p))))) by (apply (Permutation_in _ (Permutation_sym Rn)), in_seq; lia).
      apply in_map_iff in I as (j & <- & Hj). apply in_seq in Hj. destruct (HU j) as [Hs HG].
      destruct (V j ltac:(lia)) as [RT VT]. rewrite (Q j ltac:(lia)) in RT, VT. split.
      + change (rigid (in_unit (pic_unit h j) (T (pic_was h j)))).
        rewrite <- (iso_mul_id_r (in_unit _ _)), <- (iso_inv_r _ HG), <- iso_mul_assoc. apply rigid_mul; [ exact RT | apply rigid_inv, HG ].
      + exact (proj1 (pose_front_same _ _ _ _ _ _ _ Hs HG (S j ltac:(lia))) VT).
    - rewrite En in Hi. destruct (HU i) as [Hs HG]. destruct (V (pic_was h i) (reorders_lt _ _ Rn i Hi)) as [RT VT]. rewrite (Q i Hi). split.
      + apply rigid_mul; [ apply in_unit_rigid, RT | exact HG ].
      + exact (proj2 (pose_front_same _ _ _ _ _ _ _ Hs HG (S i Hi)) VT).
  Qed.
  Lemma restated_sum k d T T' : restated T T' -> in_view_of_lens p T ->
    lens_sum p' (resized_camera (pic_zoom h) (pic_shift h) k) d T' = pic_zoom h * pic_zoom h * lens_sum p k d T.
  Proof.
    intros Q V. destruct Sm as (En & Rn & S). destruct Hh as [HU _]. rewrite !lens_by_picture, En.
    rewrite <- (sum_perm _ _ (fun i => picture_error k d (T i) (picture p i)) Rn), sum_map.
    transitivity (sum_over (seq 0 (List.length (ip_image_observations p))) (fun i => pic_zoom h * pic_zoom h *
      picture_error k d (T (pic_was h i)) (picture p (pic_was h i)))).
    - apply sum_eq. intros i Hi. apply in_seq in Hi. assert (Hi' : (i < List.length (ip_image_observations p))%nat) by lia.
      cbv beta. rewrite (Q i Hi'). destruct (HU i) as [Hs HG]. apply picture_error_same; try assumption; [ apply S, Hi' | ].
      apply (V (pic_was h i) (reorders_lt _ _ Rn i Hi')).
    - generalize (seq 0 (List.length (ip_image_observations p))) as l. intros l.
      induction l as [|a l IH]; rewrite ?sum_cons, ?sum_nil; [ ring | rewrite IH; ring ].
  Qed.
  Lemma restated_back T' : in_view_of_lens p' T' -> exists T, restated T T'.
  Proof.
    intros V. destruct Sm as (En & Rn & S). destruct Hh as [HU _]. destruct (reorders_inv _ _ Rn) as [g Hg].
    exists (fun j => in_unit (/ pic_unit h (g j)) (iso_mul (T' (g j)) (iso_inv (pic_target h (g j))))).
    intros i Hi. rewrite (Hg i Hi). destruct (HU i) as [Hs HG]. rewrite in_unit_back by lra.
    rewrite iso_mul_assoc, iso_inv_l, iso_mul_id_r by exact HG. reflexivity.
  Qed.
  Lemma views_count : List.length (image_views p' (seq 0 (List.length (ip_image_observations p')))) =
    List.length (image_views p (seq 0 (List.length (ip_image_observations p)))).
  Proof.
    destruct Sm as (En & Rn & S). apply INR_eq.
    assert (E : forall q l, INR (List.length (image_views q l)) = sum_over l (fun i => INR (List.length (picture q i)))).
    { intros q l. unfold image_views. induction l as [|a l IH]; cbn [flat_map]; rewrite ?sum_cons; [ reflexivity | ].
      rewrite app_length, map_length, plus_INR. f_equal. exact IH. }
    rewrite !E, En, <- (sum_perm _ _ (fun i => INR (List.length (picture p i))) Rn), sum_map. apply sum_eq. intros i Hi. apply in_seq in Hi. f_equal. symmetry.
    apply (same_length _ _ _ (S i ltac:(lia))).
  Qed.
  Lemma best_lens_restated k d T : best_lens p k d T ->
    let T' := fun i => iso_mul (in_unit (pic_unit h i) (T (pic_was h i))) (pic_target h i) in
    best_lens p' (resized_camera (pic_zoom h) (pic_shift h) k) d T' /\
    lens_sum p' (resized_camera (pic_zoom h) (pic_shift h) k) d T' = pic_zoom h * pic_zoom h * lens_sum p k d T.
  Proof.
    intros (V & B) T'. assert (Q : restated T T') by (intros i _; reflexivity). split; [ | apply (restated_sum k d T T' Q V) ].
    split; [ apply (restated_view T T' Q), V | ]. intros k1 d1 T1' V1'. destruct (restated_back T1' V1') as [T1 Q1].
    destruct (resized_back (pic_zoom h) (pic_shift h) k1 (proj2 Hh)) as [k0 ->].
    pose proof (proj1 (restated_view T1 T1' Q1) V1') as V1.
    rewrite (restated_sum _ _ _ _ Q V), (restated_sum _ _ _ _ Q1 V1). apply Rmult_le_compat_l; [ nra | ]. apply B, V1.
  Qed.
End Related.

Lemma lens_choices u psolve pcov solve cov p r u' psolve' pcov' solve' cov' p' r' h :
  honest_blocks solve -> (forall blocks start, ends_at_best p (fst (solve blocks start))) ->
  honest_blocks solve' -> (forall blocks start, ends_at_best p' (fst (solve' blocks start))) ->
  optimizeIntrinsic u psolve pcov solve cov p = Ok r -> optimizeIntrinsic u' psolve' pcov' solve' cov' p' = Ok r' ->
  sensible_pictures h -> same_pictures h p p' ->
  ir_final_cost_per_obs r' = pic_zoom h * pic_zoom h * ir_final_cost_per_obs r /\
  exists T', best_lens p' (resized_camera (pic_zoom h) (pic_shift h) (ir_intrinsics r)) (lens_with (ir_distortions r)) T'.
Proof.
  intros Ho B Ho' B' E E' Hh Sm.
  destruct (lens_reported _ _ _ _ _ _ _ Ho B E) as (T & BT & ->). destruct (lens_reported _ _ _ _ _ _ _ Ho' B' E') as (T' & BT' & ->).
  destruct (best_lens_restated h p p' Hh Sm _ _ _ BT) as [BA Q]. split; [ | eexists; exact BA ].
  rewrite (views_count h p p' Sm). unfold Rdiv. rewrite <- Rmult_assoc, <- Q. f_equal.
  destruct BT' as [V' L']. destruct BA as [VA LA]. apply Rle_antisym; [ apply L', VA | apply LA, V' ].
Qed.
