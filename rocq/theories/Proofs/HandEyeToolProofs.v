(** The hand-eye tools as a whole. *)
From Coq Require Import Reals Arith Lia Lra String List Permutation.
From Verif.Base Require Import Geom Outcome.
From Verif.Model Require Import Pose Covariance Solver HandEye Homography Pnp Projection IntrinsicValidation DataSet ExampleTools.
From Verif.Spec Require Import Frames StatSpec PinHole ProjectionSpec HomographySpec ToolSpec.
From Verif.Proofs Require Import GeomLemmas ListLemmas HandEyeProofs ProjectionProofs HomographyProofs ToolProofs AnalysisProofs.
Import ListNotations.
Local Open Scope R_scope.

Lemma pairs_mounted {image} (mount : list (correspondence vec2) -> iso -> observation vec2)
  (sel : list ((image * iso) * list (correspondence vec2))) : (forall cs T, correspondence_set (mount cs T) = cs) ->
  forall {B} (f : observation vec2 * correspondence vec2 -> B) (g : iso * correspondence vec2 -> B),
  (forall s c, In s sel -> In c (snd s) -> f (mount (snd s) (snd (fst s)), c) = g (snd (fst s), c)) ->
  map f (all_pairs (map (fun s => mount (snd s) (snd (fst s))) sel)) = map g (seen_pairs sel).
Proof.
  intros Hm B f g H. unfold all_pairs, seen_pairs. rewrite !flat_map_concat_map, !concat_map, !map_map. f_equal.
  apply map_ext_in. intros s Hs. rewrite Hm, !map_map. apply map_ext_in. intros c Hc. apply H; assumption.
Qed.

Lemma from_tool M C T : target_in_camera C M iso_id T = target_from_tool M C T.
Proof. unfold target_in_camera, target_from_tool. rewrite iso_mul_id_l. reflexivity. Qed.
Lemma from_base M C T : target_in_camera C iso_id M T = target_from_base M C T.
Proof. unfold target_in_camera, target_from_base. rewrite iso_mul_id_l. reflexivity. Qed.
Lemma plain_id : plain_pose iso_id.
Proof. split; [ apply rigid_id | left; reflexivity ]. Qed.

Lemma chosen_unique {A B} (P : A -> B -> Prop) l r : (forall a b b', P a b -> P a b' -> b = b') ->
  chosen P l r -> forall r', chosen P l r' -> r' = r.
Proof.
  intros F H. induction H as [ | a b l r Hp H IH | a l r Hn H IH]; intros r' H'; inversion H' as [ | a' b' l' s' Hp' Hr' | a' l' s' Hn' Hr' ]; subst.
  - reflexivity.
  - rewrite (F a b b' Hp Hp'). f_equal. apply IH, Hr'.
  - exfalso. exact (Hn' _ Hp).
  - exfalso. exact (Hn _ Hp').
  - apply IH, Hr'.
Qed.
Lemma sees_unique {image features} (v : vision image features) img cs cs' : sees v img cs -> sees v img cs' -> cs = cs'.
Proof. intros (f & F & _ & E) (f' & F' & _ & E'). congruence. Qed.

Section Tool.
  Context {image features G : Type} (v : vision image features) (lu : lu_solver) (seeded : nat -> G)
    (uniform_int : nat -> nat -> G -> nat * G) (draw : image -> list vec2 -> res image) (display : image -> res unit)
    (u : nat -> nat -> R) (solve : solver he_vars) (cov : cov_oracle) (runs : nat -> pnp_run) (t : R) (k : intrinsics)
    (tg cg : iso) (ps : list (image * iso)).
  Notation use := (usable v lu seeded uniform_int t).
  Notation tool mount := (handEyeTool mount v lu seeded uniform_int draw display u solve cov runs t k tg cg (Some (data_of ps))).

  Lemma tool_parts mount rep : tool mount = Ok rep ->
    exists sel, chosen use ps sel /\
      let obs := map (fun s => mount (snd s) (snd (fst s))) sel in
      let problem := HEP2 obs k tg cg default_he_labels in
      optimize2D3D u solve cov problem = Ok (rep_result rep) /\
      analyze3DProjectionError problem (rep_result rep) = Ok (rep_errors rep) /\
      analyzeResults draw display runs problem (rep_result rep) (map (fun s => fst (fst s)) sel) = Ok (rep_differences rep).
  Proof.
    unfold handEyeTool. intros E.
    destruct (collectObservations _ _ _ _ _ _ _) as [[obs imgs] | |] eqn:Co; cbn [bind] in E; try discriminate.
    apply collected in Co. destruct Co as (sel & Ch & -> & ->). exists sel. split; [ exact Ch | ]. cbv zeta.
    destruct (optimize2D3D _ _ _ _) as [r | |] eqn:Op; cbn [bind] in E; try discriminate.
    destruct (analyze3DProjectionError _ _) as [es | |] eqn:An; cbn [bind] in E; try discriminate.
    destruct (analyzeResults _ _ _ _ _ _) as [d | |] eqn:Ar; cbn [bind] in E; try discriminate.
    injection E as <-. cbn [rep_result rep_errors rep_differences]. auto.
  Qed.

  Lemma tool_frames mount from rep : (forall cs T, correspondence_set (mount cs T) = cs) ->
    (forall cs T, plain_pose T -> plain_pose (to_camera_mount (mount cs T)) /\ plain_pose (to_target_mount (mount cs T))) ->
    (forall cs M C T, target_in_camera C (to_camera_mount (mount cs M)) (to_target_mount (mount cs M)) T = from M C T) ->
    tool mount = Ok rep -> (forall p, In p ps -> plain_pose (snd p)) ->
    exists sel blocks xf s, chosen use ps sel /\
      (forall x, rigid (poseCalToEigen (fst x)) -> map (fun f => f x) blocks =
       map (fun mc => pixel_error k (from (fst mc) (iso_inv (poseCalToEigen (fst x))) (poseCalToEigen (snd x))) (snd mc)) (seen_pairs sel)) /\
      solve blocks (poseEigenToCal (iso_inv cg), poseEigenToCal tg) = (xf, s) /\
      he_converged (rep_result rep) = term_convergence s /\
      he_target_mount_to_target (rep_result rep) = poseCalToEigen (snd xf) /\
      he_camera_mount_to_camera (rep_result rep) = iso_inv (poseCalToEigen (fst xf)) /\
      he_initial_cost_per_obs (rep_result rep) = initial_cost s / INR (2 * List.length (seen_pairs sel)) /\
      he_final_cost_per_obs (rep_result rep) = final_cost s / INR (2 * List.length (seen_pairs sel)).
  Proof.
    intros Hcs Hpl Hfr E Pl. destruct (tool_parts mount rep E) as (sel & Ch & Op & _).
    assert (PlS : forall s, In s sel -> plain_pose (snd (fst s))).
    { intros s Hs. apply Pl. destruct s as [q c]. exact (proj1 (chosen_in _ _ _ Ch _ _ Hs)). }
    destruct (result2 (HEP2 (map (fun s => mount (snd s) (snd (fst s))) sel) k tg cg default_he_labels)) as (blocks & Hb & K).
    - intros o Ho. apply in_map_iff in Ho. destruct Ho as (s & <- & Hs). apply Hpl, PlS, Hs.
    - assert (L : List.length (all_pairs (map (fun s => mount (snd s) (snd (fst s))) sel)) = List.length (seen_pairs sel)).
      { erewrite <- (map_length (fun _ => 0)), <- (map_length (fun _ => 0) (seen_pairs sel)). f_equal. apply pairs_mounted; [ exact Hcs | reflexivity ]. }
      destruct (K _ _ _ _ Op) as (xf & s & Hs & Hc & Ht & Hca & Hi & Hf). exists sel, blocks, xf, s.
      cbn [h2_camera_guess h2_target_guess h2_intr h2_observations] in *. rewrite L in Hi, Hf.
      split; [ exact Ch | ]. split; [ | auto 9 ]. intros x R. etransitivity; [ exact (Hb x R) | ].
      apply pairs_mounted; [ exact Hcs | ]. intros s0 c _ _. cbn [fst snd]. rewrite Hfr. reflexivity.
  Qed.
  Lemma tool_wrist rep : tool on_wrist = Ok rep -> (forall p, In p ps -> plain_pose (snd p)) ->
    exists sel blocks xf s, chosen use ps sel /\
      (forall x, rigid (poseCalToEigen (fst x)) -> map (fun f => f x) blocks =
       map (fun mc => pixel_error k (target_from_tool (fst mc) (iso_inv (poseCalToEigen (fst x))) (poseCalToEigen (snd x))) (snd mc)) (seen_pairs sel)) /\
      solve blocks (poseEigenToCal (iso_inv cg), poseEigenToCal tg) = (xf, s) /\
      he_converged (rep_result rep) = term_convergence s /\
      he_target_mount_to_target (rep_result rep) = poseCalToEigen (snd xf) /\
      he_camera_mount_to_camera (rep_result rep) = iso_inv (poseCalToEigen (fst xf)) /\
      he_initial_cost_per_obs (rep_result rep) = initial_cost s / INR (2 * List.length (seen_pairs sel)) /\
      he_final_cost_per_obs (rep_result rep) = final_cost s / INR (2 * List.length (seen_pairs sel)).
  Proof.
    apply (tool_frames on_wrist target_from_tool); [ reflexivity | intros cs T H; split; [ exact H | exact plain_id ] | intros; apply from_tool ].
  Qed.
  Lemma tool_base rep : tool on_base = Ok rep -> (forall p, In p ps -> plain_pose (snd p)) ->
    exists sel blocks xf s, chosen use ps sel /\
      (forall x, rigid (poseCalToEigen (fst x)) -> map (fun f => f x) blocks =
       map (fun mc => pixel_error k (target_from_base (fst mc) (iso_inv (poseCalToEigen (fst x))) (poseCalToEigen (snd x))) (snd mc)) (seen_pairs sel)) /\
      solve blocks (poseEigenToCal (iso_inv cg), poseEigenToCal tg) = (xf, s) /\
      he_converged (rep_result rep) = term_convergence s /\
      he_target_mount_to_target (rep_result rep) = poseCalToEigen (snd xf) /\
      he_camera_mount_to_camera (rep_result rep) = iso_inv (poseCalToEigen (fst xf)) /\
      he_initial_cost_per_obs (rep_result rep) = initial_cost s / INR (2 * List.length (seen_pairs sel)) /\
      he_final_cost_per_obs (rep_result rep) = final_cost s / INR (2 * List.length (seen_pairs sel)).
  Proof.
    apply (tool_frames on_base target_from_base); [ reflexivity | intros cs T H; split; [ exact plain_id | exact H ] | intros; apply from_base ].
  Qed.

  Lemma seen_length (sel : list ((image * iso) * list (correspondence vec2))) : chosen use ps sel -> sel <> [] -> (12 <= List.length (seen_pairs sel))%nat.
  Proof.
    intros Ch N. destruct sel as [ | [p cs] sel]; [ congruence | ]. unfold seen_pairs. cbn [flat_map]. rewrite app_length, map_length. cbn [fst snd].
    destruct (chosen_in _ _ _ Ch p cs (or_introl eq_refl)) as [_ [_ [L _]]]. lia.
  Qed.

  (** The reported errors of a perfect calibration are zero. *)
  Lemma tool_perfect mount from rep sel : (forall cs T, correspondence_set (mount cs T) = cs) ->
    (forall cs T, rigid T -> rigid (to_camera_mount (mount cs T)) /\ rigid (to_target_mount (mount cs T))) ->
    (forall cs M C T, target_in_camera C (to_camera_mount (mount cs M)) (to_target_mount (mount cs M)) T = from M C T) ->
    fx k <> 0 -> fy k <> 0 -> chosen use ps sel -> (forall p, In p ps -> rigid (snd p)) ->
    tool mount = Ok rep ->
    let C := he_camera_mount_to_camera (rep_result rep) in let T := he_target_mount_to_target (rep_result rep) in
    rigid C -> rigid T ->
    (forall M c, In (M, c) (seen_pairs sel) ->
      let pose := from M C T in vz (in_target c) = 0 /\ vz (iso_app pose (in_target c)) <> 0 /\
      crosses_plane pose (iso_app pose (in_target c)) /\ in_image c = pinhole k (iso_app pose (in_target c))) ->
    rep_errors rep = ErrorStats 0 (Some 0) 0 0.
  Proof.
    intros Hcs Hpl Hfr Fx Fy Ch Pl E C T RC RT P. destruct (tool_parts mount rep E) as (sel' & Ch' & Op & An & Ar).
    assert (sel' = sel) by (refine (chosen_unique _ _ _ _ Ch _ Ch'); intros a b b' [H _] [H' _]; exact (sees_unique _ _ _ _ H H')). subst sel'.
    assert (N : sel <> []).
    { intros ->. cbn [map] in Ar. discriminate. }
    unfold analyze3DProjectionError in An. cbn [h2_observations h2_intr] in An.
    rewrite error_set_perfect in An; try assumption.
    - cbn [bind] in An.
      assert (L : (2 <= List.length (all_pairs (map (fun s => mount (snd s) (snd (fst s))) sel)))%nat).
      { pose proof (seen_length sel Ch N) as S12.
        pose proof (pairs_mounted mount sel Hcs (fun _ => tt) (fun _ => tt) ltac:(reflexivity)) as X. apply (f_equal (@List.length _)) in X. rewrite !map_length in X. lia. }
      rewrite error_stats_zero in An by exact L. injection An as <-. reflexivity.
    - intros o Ho. apply in_map_iff in Ho. destruct Ho as (s & <- & Hs).
      assert (Rs : rigid (snd (fst s))) by (apply Pl; destruct s as [q c]; exact (proj1 (chosen_in _ _ _ Ch _ _ Hs))).
      destruct (Hpl (snd s) _ Rs) as [H1 H2]. split; [ exact H1 | split; [ exact H2 | ] ].
      rewrite Hcs. intros c Hc. rewrite Hfr. apply (P (snd (fst s)) c). unfold seen_pairs. apply in_flat_map. exists s. split; [ exact Hs | ].
      apply in_map. exact Hc.
  Qed.
  Lemma tool_wrist_perfect rep sel : fx k <> 0 -> fy k <> 0 -> chosen use ps sel -> (forall p, In p ps -> rigid (snd p)) ->
    tool on_wrist = Ok rep ->
    let C := he_camera_mount_to_camera (rep_result rep) in let T := he_target_mount_to_target (rep_result rep) in
    rigid C -> rigid T ->
    (forall M c, In (M, c) (seen_pairs sel) ->
      let pose := target_from_tool M C T in vz (in_target c) = 0 /\ vz (iso_app pose (in_target c)) <> 0 /\
      crosses_plane pose (iso_app pose (in_target c)) /\ in_image c = pinhole k (iso_app pose (in_target c))) ->
    rep_errors rep = ErrorStats 0 (Some 0) 0 0.
  Proof.
    apply (tool_perfect on_wrist target_from_tool); [ reflexivity | intros cs T H; split; [ exact H | exact rigid_id ] | intros; apply from_tool ].
  Qed.
  Lemma tool_base_perfect rep sel : fx k <> 0 -> fy k <> 0 -> chosen use ps sel -> (forall p, In p ps -> rigid (snd p)) ->
    tool on_base = Ok rep ->
    let C := he_camera_mount_to_camera (rep_result rep) in let T := he_target_mount_to_target (rep_result rep) in
    rigid C -> rigid T ->
    (forall M c, In (M, c) (seen_pairs sel) ->
      let pose := target_from_base M C T in vz (in_target c) = 0 /\ vz (iso_app pose (in_target c)) <> 0 /\
      crosses_plane pose (iso_app pose (in_target c)) /\ in_image c = pinhole k (iso_app pose (in_target c))) ->
    rep_errors rep = ErrorStats 0 (Some 0) 0 0.
  Proof.
    apply (tool_perfect on_base target_from_base); [ reflexivity | intros cs T H; split; [ exact rigid_id | exact H ] | intros; apply from_base ].
  Qed.

  (** No usable image *)
  Lemma chosen_none {A B} (P : A -> B -> Prop) l r : chosen P l r -> (forall a b, In a l -> ~ P a b) -> r = [].
  Proof.
    induction 1 as [ | a b l r Hp Hc IH | a l r Hn Hc IH]; intros H; [ reflexivity | | ].
    - exfalso. exact (H a b (or_introl eq_refl) Hp).
    - apply IH. intros; apply H; right; assumption.
  Qed.
  Lemma tool_nothing mount : in_bounds uniform_int -> (forall p, In p ps -> harmless v (fst p)) ->
    (forall p cs, In p ps -> ~ use p cs) -> (forall l, Permutation l (co_order cov l)) ->
    tool mount = Throw CovarianceException.
  Proof.
    intros B H N Pm. unfold handEyeTool. destruct (collects v lu seeded uniform_int mount t ps B H) as (obs & imgs & E). rewrite E. cbn [bind].
    apply collected in E. destruct E as (sel & Ch & -> & ->). rewrite (chosen_none _ _ _ Ch) by (intros a b Ha; apply N, Ha). cbn [map].
    rewrite empty2; [ reflexivity | exact Pm | reflexivity ].
  Qed.
  Lemma tool_no_data mount : handEyeTool mount v lu seeded uniform_int draw display u solve cov runs t k tg cg (@None (data_set image)) = Throw RuntimeError.
  Proof. reflexivity. Qed.

  (** A few correspondences are never enough. *)
  Lemma few_unused p cs : (List.length cs < 12)%nat -> ~ use p cs.
  Proof. intros L [_ [M _]]. lia. Qed.
End Tool.
