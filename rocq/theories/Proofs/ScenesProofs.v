(** The other tools on the synthetic scene. *)
From Coq Require Import Reals Arith Lia Lra String List Permutation.
From Verif.Base Require Import Geom Outcome.
From Verif.Model Require Import Pose Covariance Solver HandEye Homography Pnp Projection IntrinsicValidation DataSet ExampleTools CvTools.
From Verif.Spec Require Import Frames StatSpec PinHole ProjectionSpec HomographySpec ValidationSpec ToolSpec.
From Verif.Proofs Require Import GeomLemmas ListLemmas PoseProofs HandEyeProofs PnpProofs KinematicProofs IntrinsicValidationProofs ToolProofs AnalysisProofs HandEyeToolProofs SceneProofs LoopProofs CvToolProofs.
Import ListNotations.
Local Open Scope R_scope.

Lemma reprojections_pinhole T k pts : (forall p, In p pts -> vz (iso_app T p) <> 0) ->
  getReprojections T k pts = map (fun p => pinhole k (iso_app T p)) pts.
Proof. intros H. apply map_ext_in. intros p Hp. apply arr_pinhole, H, Hp. Qed.
Lemma sc_example : exists obs, exampleObservations sc_vision (data_of sc_data) = Ok obs /\ List.length obs = 3%nat.
Proof. eexists. split; reflexivity. Qed.
Lemma sc_pnp u solve : exists r,
  solvePnpTool sc_vision (fun _ _ _ => Ok (true, (V3 0 0 0, V3 0 0 1))) u solve ex_cov_oracle sc_intr (Some iso_id) = Ok r.
Proof.
  unfold solvePnpTool, findFeatures. cbn [sc_vision find none create show_features bind sc_find sc_seen sc_points map].
  unfold solveCVPnP. cbn [bind].
  match goal with |- context [optimizePnP u solve ex_cov_oracle ?p] =>
    destruct (pnp_succeeds2 u solve ex_cov_oracle p) as [r E]; try reflexivity; [ apply ex_oracle_sym | discriminate | ] end.
  rewrite E. cbn [bind]. eexists. reflexivity.
Qed.
Lemma sc_sees d : sees sc_vision (Some (iso_trans d)) (sc_seen (iso_trans d)).
Proof. exists (sc_seen (iso_trans d)). repeat split. Qed.
Lemma sc_intrinsic : (forall img, In img (map fst sc_data) -> tame sc_vision img) /\
  chosen (sees sc_vision) (map fst sc_data) [(Some iso_id, sc_seen iso_id); (Some sc_move, sc_seen sc_move)].
Proof.
  split.
  - intros img _. split; [ exact I | ]. intros f _. split; [ exact I | reflexivity ].
  - cbn [sc_data map fst]. constructor; [ apply (sc_sees vzero) | ]. constructor 3.
    + intros b (f & F & N & _). cbn in F. injection F as <-. discriminate.
    + constructor; [ apply sc_sees | constructor ].
Qed.
Lemma sc_noise : exists problems, noiseProblems sc_vision (fun _ => Some iso_id) sc_intr sc_target ["a"; "b"]%string = Ok problems /\
  List.length problems = 2%nat.
Proof. eexists. split; reflexivity. Qed.
Lemma noise_single {image features} (v : vision image features) read k g name problems :
  noiseProblems v read k g [name] = Ok problems ->
  exists sel, chosen (fun name cs => sees_shown v (read name, iso_id) cs) [name] sel /\
    problems = map (fun s => PnP2 k (snd s) g "camera_to_target") sel.
Proof.
  intros E. apply noise_first in E. destruct E as [(cs & S & ->) | (N & ->)].
  - exists [(name, cs)]. split; [ constructor; [ exact S | constructor ] | reflexivity ].
  - exists []. split; [ constructor 3; [ exact N | constructor ] | reflexivity ].
Qed.
Lemma noise_refuted : exists (v : vision (option iso) (list (correspondence vec2))) read names problems,
  noiseProblems v read sc_intr sc_target names = Ok problems /\
  forall sel, chosen (fun name cs => sees_shown v (read name, iso_id) cs) names sel ->
    problems <> map (fun s => PnP2 sc_intr (snd s) sc_target "camera_to_target") sel.
Proof.
  exists sc_vision, (fun name => if String.eqb name "a" then None else Some iso_id), ["a"; "b"]%string, [].
  split; [ reflexivity | ]. intros sel Ch E. apply eq_sym, map_eq_nil in E. subst sel.
  inversion Ch as [ | | a l r N Ch2 ]; subst. inversion Ch2 as [ | | a l r N2 Ch3 ]; subst. apply (N2 (sc_seen iso_id)).
  exists (sc_seen iso_id). repeat split.
Qed.
Lemma sc_quiet img : quiet sc_vision img.
Proof. split; [ exact I | ]. split; [ reflexivity | ]. intros f _. split; [ exact I | ]. intros _ _. exists f. reflexivity. Qed.
Lemma sc_dark : (forall p, In p [(None, iso_id)] -> quiet sc_vision (fst p)) /\
  (forall p cs, In p [(None, iso_id)] -> ~ sees_shown sc_vision p cs).
Proof.
  split; [ intros p _; apply sc_quiet | ]. intros p cs [<- | []] (f & F & N & _). cbn in F. injection F as <-. discriminate.
Qed.

(** Pose estimations that stay where they start agree. *)
Lemma stay_pose k g cs fit : rigid g -> fitted ex_run k g cs fit -> pnp_camera_to_target fit = g.
Proof.
  intros R F. destruct (pnp_result2 (PnP2 k cs g "camera_to_target")) as (b & _ & X).
  destruct (X _ _ _ _ F) as (_ & x & s & Es & _ & P & _). cbn [ex_run run_solve] in Es. injection Es as <- <-.
  rewrite P. apply pnp_start_stored, R.
Qed.
Lemma stay_virtual cs k g d : rigid g -> measureVirtualTargetDiff ex_run ex_run cs k g 1 = Ok d ->
  vr_positional_error d = 0 /\ vr_angular_error d = 0.
Proof.
  intros R E. apply virtual_result_spec in E.
  destruct E as (s1 & s2 & p1 & p2 & _ & _ & F1 & _ & F2 & _ & _ & _ & _ & _ & _ & Z). apply Z.
  rewrite (stay_pose _ _ _ _ R F1), (stay_pose _ _ _ _ R F2). reflexivity.
Qed.
Lemma zeros_within l : (forall x, In x l -> x = 0) -> average l + 2 * std_dev l = 0.
Proof.
  intros H. assert (E : l = map (fun _ => 0) l) by (rewrite <- (map_id l) at 1; apply map_ext_in, H).
  assert (A : average l = 0) by (rewrite E; apply average_zeros).
  unfold std_dev. rewrite A.
  assert (T : total (map (fun x => (x - 0) * (x - 0)) l) = 0).
  { clear -H. induction l as [ | a l IH]; [ reflexivity | ]. unfold total in *. cbn. rewrite IH by (intros; apply H; right; assumption).
    rewrite (H a) by (left; reflexivity). ring. }
  rewrite T. unfold Rdiv. rewrite Rmult_0_l, sqrt_0. ring.
Qed.
Lemma sc_shown d M : sees_shown sc_vision (Some (iso_trans d), M) (sc_seen (iso_trans d)).
Proof. exists (sc_seen (iso_trans d)). repeat split. Qed.
Lemma sc_shown_sel : chosen (sees_shown sc_vision) sc_data sc_sel.
Proof.
  unfold sc_data, sc_sel. constructor; [ apply (sc_shown vzero) | ]. constructor 3.
  - intros b (f & F & N & _). cbn in F. injection F as <-. discriminate.
  - constructor; [ apply sc_shown | constructor ].
Qed.
Lemma sc_validated : validationTool sc_vision (fun _ => (ex_run, ex_run)) sc_intr sc_target iso_id (Some (data_of sc_data)) = Ok true.
Proof.
  assert (X : exists b, validationTool sc_vision (fun _ => (ex_run, ex_run)) sc_intr sc_target iso_id (Some (data_of sc_data)) = Ok b).
  { unfold validationTool. destruct (validation_succeeds sc_vision sc_data) as [obs E]; [ intros p _; apply sc_quiet | ].
    rewrite E. cbn [bind]. apply validation_images in E. destruct E as (sel & Ch & ->).
    assert (sel = sc_sel) as ->.
    { refine (chosen_unique _ _ _ _ sc_shown_sel _ Ch). intros a b b' (f & F & _ & _ & X) (f' & F' & _ & _ & X'). congruence. }
    match goal with |- context [measureIntrinsicCalibrationAccuracy ?a ?b ?c ?d ?e ?f ?g] =>
      destruct (accuracy_succeeds a c d e f g b) as [r ->] end; [ discriminate | | | cbn [bind]; eauto ].
    - intros o o' Ho Ho'. cbn in Ho, Ho'. destruct Ho as [<- | [<- | []]], Ho' as [<- | [<- | []]]; reflexivity.
    - intros i o Ho. apply nth_error_In in Ho. cbn [fst snd].
      assert (L : List.length (correspondence_set o) = 12%nat) by (destruct Ho as [<- | [<- | []]]; reflexivity).
      match goal with |- exists v, measureVirtualTargetDiff _ _ _ ?k ?g _ = _ =>
        destruct (ex_fits k g (firstn 6 (correspondence_set o))) as (p1 & F1 & G1); [ | destruct (ex_fits k g (skipn 6 (correspondence_set o))) as (p2 & F2 & G2) ] end.
      + intros N. apply (f_equal (@List.length _)) in N. rewrite firstn_length, L in N. discriminate.
      + intros N. apply (f_equal (@List.length _)) in N. rewrite skipn_length, L in N. discriminate.
      + refine (virtual_succeeds ex_run ex_run _ _ _ 1 _ _ p1 p2 _ _ F1 G1 F2 G2); [ apply firstn_skipn | ].
        rewrite firstn_length, L. reflexivity. }
  destruct X as [b E]. rewrite E. f_equal. apply validation_verdict in E. destruct E as (sel & vs & Ch & N & L & V & W).
  assert (Z : forall d, In d vs -> vr_positional_error d = 0 /\ vr_angular_error d = 0).
  { intros d Hd. apply In_nth_error in Hd. destruct Hd as [i Hi].
    destruct (nth_error sel i) as [s | ] eqn:Hs.
    - specialize (V i s d Hs Hi). cbn [fst snd] in V. refine (stay_virtual _ _ _ _ _ V).
      assert (sel = sc_sel) as ->.
      { refine (chosen_unique _ _ _ _ sc_shown_sel _ Ch). intros x y y' (f & F & _ & _ & X) (f' & F' & _ & _ & X'). congruence. }
      apply nth_error_In in Hs. unfold target_from_tool. apply rigid_mul; [ apply rigid_inv, rigid_mul | ].
      + destruct Hs as [<- | [<- | []]]; [ apply rigid_id | apply rigid_trans ].
      + apply rigid_id.
      + apply rigid_trans.
    - apply nth_error_None in Hs. assert (i < List.length vs)%nat by (apply nth_error_Some; congruence). lia. }
  apply W. pose proof PI_RGT_0. cbv zeta.
  rewrite !zeros_within; [ lra | | ]; intros x Hx; apply in_map_iff in Hx; destruct Hx as (d & <- & Hd); apply Z, Hd.
Qed.
