(** Two pictures described in two ways, for C108. *)
From Coq Require Import Reals Lra Psatz Arith Lia String List Permutation.
From Verif.Base Require Import Geom Outcome Matrix.
From Verif.Model Require Import Pose Covariance Solver HandEye BlockSolver Pnp Intrinsic.
From Verif.Spec Require Import CovarianceSpec PinHole Frames HomographySpec PnpSpec ReportSpec SameDataSpec RigChoicesSpec IntrinsicSpec UniqueSpec IntrinsicUniqueSpec LensChoicesSpec.
From Verif.Proofs Require Import GeomLemmas RotLemmas AngleAxisLemmas PoseProofs CovarianceProofs HandEyeProofs PnpProofs UniqueLemmas UniqueProofs
  IntrinsicProofs UniqueExamples IntrinsicUnique IntrinsicUniqueExample SameDataProofs LensChoicesProofs.
From Verif.Proofs Require SameDataExample ToolsAgreeProofs.
Import ListNotations.
Local Open Scope R_scope.

(** The tilted squares of C96, in the opposite order, each with its points reversed, with half the unit of length, pictures of
    half the size, and another origin on the target. *)
Definition lc_choices : picture_choices :=
  PictureChoices (fun _ => 2) (fun _ => Iso I3 (V3 1 2 0)) (1 / 2) (V2 3 4) (fun i => 1 - i)%nat.
Definition lc_rewrite (a : correspondence vec2) : correspondence vec2 :=
  Corr (resized (1 / 2) (V2 3 4) (in_image a)) (iso_app (iso_inv (Iso I3 (V3 1 2 0))) (vscale 2 (in_target a))).
Definition lc_views : intrinsic_problem :=
  IP [rev (map lc_rewrite (ex_image2 ex_k (sc_tilt 1))); rev (map lc_rewrite (ex_image2 ex_k (sc_tilt 0)))] (Intr 225 225 150 100) "pose".
Definition lc_pose (i : nat) : iso :=
  iso_mul (in_unit (pic_unit lc_choices i) (sc_tilt (pic_was lc_choices i))) (pic_target lc_choices i).
Definition lc_camera : intrinsics := resized_camera (1 / 2) (V2 3 4) ex_k.
Definition lc_finds : block_solver := goes_to (memory 2 lc_camera no_distortion lc_pose).

Lemma rigid_shift v : rigid (Iso I3 v).
Proof. apply rigid_id. Qed.
Lemma lc_sensible : sensible_pictures lc_choices.
Proof. split; [ intros i; split; [ cbn; lra | apply rigid_shift ] | cbn; lra ]. Qed.
Lemma lc_same_picture cs : same_picture 2 (Iso I3 (V3 1 2 0)) (1 / 2) (V2 3 4) cs (rev (map lc_rewrite cs)).
Proof.
  exists (map lc_rewrite cs). split; [ apply Permutation_rev | ]. induction cs as [|c cs IH]; constructor; [ split; reflexivity | exact IH ].
Qed.
Lemma lc_same : same_pictures lc_choices sc_views lc_views.
Proof.
  split; [ reflexivity | split; [ apply perm_swap | ] ]. intros i Hi. change (i < 2)%nat in Hi.
  destruct i as [|[|i]]; [ | | lia ]; apply lc_same_picture.
Qed.
Lemma lens_nonneg p k d T : 0 <= lens_sum p k d T.
Proof. apply SameDataExample.half_squares_pos. Qed.
Lemma sc_best : best_lens sc_views ex_k no_distortion sc_tilt.
Proof.
  split.
  - intros i Hi. split; [ apply sc_rigid | ]. change (i < 2)%nat in Hi. intros c Hc.
    assert (exists j, c = Corr (pinhole ex_k (iso_app (sc_tilt i) j)) j /\ In j ex_square) as (j & -> & Hj).
    { destruct i as [|[|i]]; [ | | lia ]; apply in_map_iff in Hc as (v & <- & Hv); exists v; split; auto. }
    cbn [in_target]. pose proof (sc_depth i j Hj). lra.
  - intros k' d' T' _. replace (lens_sum sc_views ex_k no_distortion sc_tilt) with 0; [ apply lens_nonneg | ].
    symmetry. apply half_squares_all_zero. intros e He. apply in_flat_map in He as (i & Hi & He). apply in_seq in Hi. change (0 <= i < 2)%nat in Hi.
    apply in_flat_map in He as (c & Hc & He). destruct i as [|[|i]]; [ | | lia ].
    + destruct (sc_perfect 0 _ eq_refl c Hc) as [_ Im]. unfold lens_error in He. rewrite lens_none, <- Im in He. cbn in He. destruct He as [<-|[<-|[]]]; ring.
    + destruct (sc_perfect 1 _ eq_refl c Hc) as [_ Im]. unfold lens_error in He. rewrite lens_none, <- Im in He. cbn in He. destruct He as [<-|[<-|[]]]; ring.
Qed.
Lemma best_on p k d T T' : (forall i, (i < List.length (ip_image_observations p))%nat -> T' i = T i) -> best_lens p k d T -> best_lens p k d T'.
Proof.
  intros H (V & B). split.
  - intros i Hi. rewrite (H i Hi). apply V, Hi.
  - intros k1 d1 T1 V1. replace (lens_sum p k d T') with (lens_sum p k d T); [ apply B, V1 | ]. rewrite !lens_by_picture.
    apply ToolsAgreeProofs.sum_eq. intros i Hi. apply in_seq in Hi. cbv beta. rewrite H by lia. reflexivity.
Qed.
Lemma memory_best p k d T : (forall i, plain_pose (T i)) -> best_lens p k d T ->
  ends_at_best p (memory (List.length (ip_image_observations p)) k d T).
Proof.
  intros PT B. unfold ends_at_best. cbv zeta. destruct (memory_camera (List.length (ip_image_observations p)) k d T) as [-> ->].
  apply (best_on p k d T); [ | exact B ]. intros i Hi. rewrite memory_pose by lia. apply plain_stored, PT.
Qed.
Lemma lc_plain i : plain_pose (lc_pose i).
Proof.
  destruct (sc_plain (pic_was lc_choices i)) as [_ Q]. assert (L : lin (lc_pose i) = lin (sc_tilt (pic_was lc_choices i))).
  { unfold lc_pose. cbn [lin iso_mul in_unit]. apply mmul_I_r. }
  split; [ | rewrite L; exact Q ]. apply rigid_mul; [ apply in_unit_rigid, sc_rigid | apply rigid_shift ].
Qed.

Lemma lc_example u : exists r r',
  honest_blocks sc_finds /\ (forall blocks start, ends_at_best sc_views (fst (sc_finds blocks start))) /\
  honest_blocks lc_finds /\ (forall blocks start, ends_at_best lc_views (fst (lc_finds blocks start))) /\
  optimizeIntrinsic u ex_solves (fun _ => ex_cov_oracle) sc_finds ex_cov_oracle sc_views = Ok r /\
  optimizeIntrinsic u ex_solves (fun _ => ex_cov_oracle) lc_finds ex_cov_oracle lc_views = Ok r' /\
  sensible_pictures lc_choices /\ same_pictures lc_choices sc_views lc_views /\ pic_was lc_choices 0 = 1%nat.
Proof.
  destruct (sc_result u sc_finds sc_views) as [r Hr]; [ cbn; lia | cbn; intros cs [<-|[<-|[]]]; discriminate | ].
  destruct (sc_result u lc_finds lc_views) as [r' Hr']; [ cbn; lia | cbn; intros cs [<-|[<-|[]]]; discriminate | ].
  exists r, r'. split; [ apply goes_to_honest | ]. split; [ intros blocks start; apply (memory_best sc_views); [ apply sc_plain | apply sc_best ] | ].
  split; [ apply goes_to_honest | ]. split.
  { intros blocks start. apply (memory_best lc_views); [ apply lc_plain | ].
    apply (best_lens_restated lc_choices sc_views lc_views lc_sensible lc_same _ _ _ sc_best). }
  split; [ exact Hr | ]. split; [ exact Hr' | ]. split; [ exact lc_sensible | split; [ exact lc_same | reflexivity ] ].
Qed.
