(** What the tools' texts say. *)
From Coq Require Import Reals ZArith Arith Lia Lra Ascii String List Sorted.
From Verif.Base Require Import Geom Outcome Matrix.
From Verif.Model Require Import Pose Covariance Solver HandEye Pnp BlockSolver MultiCamera Intrinsic Homography IntrinsicValidation DataSet ExampleTools CameraTools CovReport ParamText Print PrintText ToolText.
From Verif.Spec Require Import Frames CovarianceSpec PinHole ProjectionSpec TextSpec ParamTextSpec YamlSpec PrintSpec MultiSpec UniqueSpec ToolSpec CameraSpec PrintTextSpec ToolTextSpec.
From Verif.Proofs Require Import GeomLemmas ListLemmas CovarianceProofs HandEyeToolProofs CameraToolProofs RigToolProofs TextProofs ParamTextProofs PrintTextProofs PrintTextCopies ToolTextProofs.
Import ListNotations.
Local Open Scope string_scope.

(** ** The names in a covariance result come from the labels *)
Lemma tangent_labels label masks offset l : Forall one_line label -> forall st st',
  foldM (tangent_step label masks offset) l st = Ok st' -> Forall one_line (snd st) -> Forall one_line (snd st').
Proof.
  intros H. induction l as [|i l IH]; intros st st' E F; cbn [foldM] in E; [ injection E as <-; exact F | ].
  destruct (tangent_step label masks offset st i) as [s| |] eqn:Es; cbn [bind] in E; try discriminate. apply (IH s st' E).
  unfold tangent_step in Es. destruct st as [ix ls]. destruct (in_mask masks i); [ injection Es as <-; exact F | ].
  destruct (at_ label i) as [x| |] eqn:Ex; cbn [bind] in Es; try discriminate. injection Es as <-. cbn [snd] in *.
  apply Forall_app. split; [ exact F | constructor; [ | constructor ] ].
  unfold at_ in Ex. destruct (nth_error label i) eqn:N; [ | discriminate ]. injection Ex as <-. rewrite Forall_forall in H. apply H. exact (nth_error_In _ _ N).
Qed.
Lemma find_key_in {A} b (m : amap A) x : find_key b m = Some x -> In (b, x) m.
Proof. induction m as [|[c y] m IH]; cbn; [ discriminate | ]. destruct (Nat.eqb_spec b c); [ intros [= ->]; left; congruence | right; auto ]. Qed.
Lemma block_labels pb names masks l : (forall b x, In (b, x) names -> Forall one_line x) -> forall st st',
  foldM (block_step pb names masks) l st = Ok st' -> Forall one_line (snd (snd st)) -> Forall one_line (snd (snd st')).
Proof.
  intros H. induction l as [|b l IH]; intros st st' E F; cbn [foldM] in E; [ injection E as <-; exact F | ].
  destruct (block_step pb names masks st b) as [s| |] eqn:Es; cbn [bind] in E; try discriminate. apply (IH s st' E).
  unfold block_step in Es. destruct st as [n tan]. destruct (blockSize pb b) as [k| |]; cbn [bind] in Es; try discriminate.
  destruct (find_key b names) as [label|] eqn:Fk; [ | discriminate ].
  destruct (negb _); [ discriminate | ]. cbv zeta in Es. destruct (foldM (tangent_step _ _ _) _ _) as [tan'| |] eqn:Et; cbn [bind] in Es; try discriminate.
  injection Es as <-. cbn [snd] in *. exact (tangent_labels _ _ _ _ (H _ _ (find_key_in _ _ _ Fk)) _ _ Et F).
Qed.
Lemma nth_line l i : Forall one_line l -> one_line (nth i l "").
Proof.
  intros H. destruct (lt_dec i (List.length l)) as [L|L]; [ rewrite Forall_forall in H; apply H, nth_In, L | ].
  rewrite nth_overflow by lia. exact I.
Qed.
Lemma covariance_names u pb bs names masks r : computeCovariance u pb bs names masks = Ok r -> (forall b x, In (b, x) names -> Forall one_line x) ->
  Forall plain_names (correlation_coeffs r).
Proof.
  unfold computeCovariance. intros E H. destruct (negb _); [ discriminate | ].
  destruct (foldM _ _ _) as [[n [ix labels]]| |] eqn:Ef; cbn [bind] in E; try discriminate.
  pose proof (block_labels _ _ _ _ H _ _ Ef (Forall_nil _)) as F. cbn [snd] in F.
  destruct (negb _); [ discriminate | ]. destruct (negb _); [ discriminate | ]. cbv zeta in E.
  match type of E with computeCovarianceResults _ ?m _ = _ => destruct (results_summary u m labels eq_refl eq_refl) as (r' & ps & E' & _ & _ & _ & _ & C & _) end.
  rewrite E' in E. injection E as <-. rewrite C. apply Forall_map, Forall_forall. intros p _. unfold plain_names, pair_entry. cbn [np_names fst snd].
  split; apply nth_line, F.
Qed.
Lemma he_finish_names u solve cov blocks x0 r : he_finish u solve cov blocks x0 default_he_labels = Ok r -> Forall plain_names (correlation_coeffs (he_covariance r)).
Proof.
  unfold he_finish. destruct (solve blocks x0) as [x s]. cbv zeta. destruct (computeCovariance_names _ _ _ _) as [c| |] eqn:E; cbn [bind]; try discriminate.
  intros [= <-]. cbn [he_covariance]. refine (covariance_names _ _ _ _ _ _ E _). intros b l Hl. cbn in Hl. destruct Hl as [[= <- <-]|[[= <- <-]|[]]]; repeat constructor; discriminate.
Qed.
Lemma optimize_names u solve cov obs k tg cg r : optimize2D3D u solve cov (HEP2 obs k tg cg default_he_labels) = Ok r -> Forall plain_names (correlation_coeffs (he_covariance r)).
Proof. unfold optimize2D3D. cbv zeta. destruct (foldM _ _ _) as [bl| |]; cbn [bind]; try discriminate. apply he_finish_names. Qed.

(** ** The hand-eye tools *)
Lemma rigid_uninv T : rigid (iso_inv T) -> rigid T.
Proof. intros H. apply rigid_inv in H. destruct T as [[? ? ? ? ? ? ? ? ?] t]. exact H. Qed.

Section HandEyePages.
  Context {image features G : Type} (v : vision image features) (lu : lu_solver) (seeded : nat -> G) (uniform_int : nat -> nat -> G -> nat * G).
  Context (draw : image -> list vec2 -> res image) (display : image -> res unit) (u : nat -> nat -> R) (solve : solver he_vars) (cov : cov_oracle) (runs : nat -> pnp_run).
  Context (threshold : R) (k : intrinsics) (tg cg : iso) (ps : list (image * iso)).
  Context (to_string_f : R -> string) (nan : string) (std_sort : (named_param -> named_param -> bool) -> list named_param -> list named_param).
  Context (Hts : forall x, one_line (to_string_f x)) (Hnan : one_line nan) (Hsort : sort_contract std_sort).
  Let tool mount := handEyeTool mount v lu seeded uniform_int draw display u solve cov runs threshold k tg cg (Some (data_of ps)).

  Lemma tool_names mount rep : tool mount = Ok rep -> Forall plain_names (correlation_coeffs (he_covariance (rep_result rep))).
  Proof.
    unfold tool, handEyeTool. destruct (collectObservations _ _ _ _ _ _ _) as [[obs imgs]| |]; cbn [bind]; try discriminate. cbv zeta.
    destruct (optimize2D3D _ _ _ _) as [r| |] eqn:E; cbn [bind]; try discriminate.
    destruct (analyze3DProjectionError _ _) as [e| |]; cbn [bind]; try discriminate.
    destruct (analyzeResults _ _ _ _ _ _) as [d| |]; cbn [bind]; try discriminate. intros [= <-]. cbn [rep_result]. exact (optimize_names _ _ _ _ _ _ _ _ E).
  Qed.
  Lemma hand_eye_page cp ch tp th rep : one_line cp -> one_line ch -> one_line tp -> one_line th -> ordinary_report rep ->
    Forall plain_names (correlation_coeffs (he_covariance (rep_result rep))) ->
    page_of (handEyeText to_string_f nan std_sort cp ch tp th rep)
      [results_block (he_converged (rep_result rep)) (he_initial_cost_per_obs (rep_result rep)) (he_final_cost_per_obs (rep_result rep)); blank_line;
       errors_block nan (rep_errors rep); blank_line;
       transform_block ch cp "Camera" (he_camera_mount_to_camera (rep_result rep)); blank_line;
       transform_block th tp "Target" (he_target_mount_to_target (rep_result rep)); blank_line;
       correlations_block (to_string_f (5 / 10)) (he_covariance (rep_result rep)); differences_block (rep_differences rep)].
  Proof.
    intros L1 L2 L3 L4 ((A & B & C & D) & E & F) N. unfold handEyeText. cbv zeta.
    refine (tokens_page _ _ [_] _ _ (tokens_page _ _ [_] _ newline_page (tokens_page _ _ [_] _ _ (tokens_page _ _ [_] _ newline_page (tokens_page _ _ [_] _ _
      (tokens_page _ _ [_] _ newline_page (tokens_page _ _ [_] _ _ (tokens_page _ _ [_] _ newline_page (tokens_page _ _ [_] [_] _ _))))))))).
    - apply results_page; assumption.
    - apply errors_page; assumption.
    - apply transform_page; [ assumption | assumption | plain | assumption ].
    - apply transform_page; [ assumption | assumption | plain | assumption ].
    - apply correlations_page; assumption.
    - apply differences_page; assumption.
  Qed.

  Lemma costs_meant from sel blocks (xf : he_vars) s :
    (forall x, rigid (poseCalToEigen (fst x)) -> map (fun f => f x) blocks =
      map (fun mc => ToolSpec.pixel_error k (from (fst mc) (iso_inv (poseCalToEigen (fst x))) (poseCalToEigen (snd x))) (snd mc)) (@seen_pairs image sel)) ->
    solve blocks (poseEigenToCal (iso_inv cg), poseEigenToCal tg) = (xf, s) -> honest solve -> rigid (iso_inv (poseCalToEigen (fst xf))) ->
    final_cost s = half_squares (flat_map (fun mc => ToolSpec.pixel_error k (from (fst mc) (iso_inv (poseCalToEigen (fst xf))) (poseCalToEigen (snd xf))) (snd mc)) (seen_pairs sel)).
  Proof.
    intros Hb Hs Ho Hr. pose proof (Ho blocks (poseEigenToCal (iso_inv cg), poseEigenToCal tg)) as H. rewrite Hs in H. rewrite H.
    rewrite !flat_map_concat_map. do 2 f_equal. apply Hb, rigid_uninv, Hr.
  Qed.
  Lemma wrist_page rep : tool on_wrist = Ok rep -> (forall p, In p ps -> plain_pose (snd p)) -> honest solve -> ordinary_report rep ->
    exists sel, chosen (ToolSpec.usable v lu seeded uniform_int threshold) ps sel /\
    page_of (wristText to_string_f nan std_sort rep)
      [results_block (he_converged (rep_result rep)) (he_initial_cost_per_obs (rep_result rep)) (he_final_cost_per_obs (rep_result rep)); blank_line; errors_block nan (rep_errors rep); blank_line;
       transform_block "WRIST TO CAMERA" "Wrist" "Camera" (he_camera_mount_to_camera (rep_result rep)); blank_line; transform_block "BASE TO TARGET" "Base" "Target" (he_target_mount_to_target (rep_result rep)); blank_line;
       correlations_block (to_string_f (5 / 10)) (he_covariance (rep_result rep)); differences_block (rep_differences rep)] /\
    he_final_cost_per_obs (rep_result rep) = (half_squares (flat_map (fun mc => ToolSpec.pixel_error k (target_from_tool (fst mc) (he_camera_mount_to_camera (rep_result rep)) (he_target_mount_to_target (rep_result rep))) (snd mc)) (seen_pairs sel)) / INR (2 * List.length (seen_pairs sel)))%R.
  Proof.
    intros E Pl Ho Or. destruct (tool_wrist v lu seeded uniform_int draw display u solve cov runs threshold k tg cg ps rep E Pl) as (sel & bl & xf & s & Ch & Hb & Hs & Hc & Ht & Hca & Hi & Hf).
    exists sel.
    split; [ exact Ch | ]. split; [ unfold wristText; refine (hand_eye_page "Wrist" "WRIST TO CAMERA" "Base" "BASE TO TARGET" rep _ _ _ _ Or (tool_names on_wrist rep E)); plain | ].
    rewrite Hf. destruct Or as ((_ & _ & (R & _) & _) & _). rewrite Hca in R |- *. rewrite Ht.
    rewrite <- (costs_meant target_from_tool sel bl xf s Hb Hs Ho R). reflexivity.
  Qed.
  Lemma base_page rep : tool on_base = Ok rep -> (forall p, In p ps -> plain_pose (snd p)) -> honest solve -> ordinary_report rep ->
    exists sel, chosen (ToolSpec.usable v lu seeded uniform_int threshold) ps sel /\
    page_of (staticText to_string_f nan std_sort rep)
      [results_block (he_converged (rep_result rep)) (he_initial_cost_per_obs (rep_result rep)) (he_final_cost_per_obs (rep_result rep)); blank_line; errors_block nan (rep_errors rep); blank_line;
       transform_block "BASE TO CAMERA" "Base" "Camera" (he_camera_mount_to_camera (rep_result rep)); blank_line; transform_block "WRIST_TO_TARGET" "Wrist" "Target" (he_target_mount_to_target (rep_result rep)); blank_line;
       correlations_block (to_string_f (5 / 10)) (he_covariance (rep_result rep)); differences_block (rep_differences rep)] /\
    he_final_cost_per_obs (rep_result rep) = (half_squares (flat_map (fun mc => ToolSpec.pixel_error k (target_from_base (fst mc) (he_camera_mount_to_camera (rep_result rep)) (he_target_mount_to_target (rep_result rep))) (snd mc)) (seen_pairs sel)) / INR (2 * List.length (seen_pairs sel)))%R.
  Proof.
    intros E Pl Ho Or. destruct (tool_base v lu seeded uniform_int draw display u solve cov runs threshold k tg cg ps rep E Pl) as (sel & bl & xf & s & Ch & Hb & Hs & Hc & Ht & Hca & Hi & Hf).
    exists sel.
    split; [ exact Ch | ]. split; [ unfold staticText; refine (hand_eye_page "Base" "BASE TO CAMERA" "Wrist" "WRIST_TO_TARGET" rep _ _ _ _ Or (tool_names on_base rep E)); plain | ].
    rewrite Hf. destruct Or as ((_ & _ & (R & _) & _) & _). rewrite Hca in R |- *. rewrite Ht.
    rewrite <- (costs_meant target_from_base sel bl xf s Hb Hs Ho R). reflexivity.
  Qed.
End HandEyePages.
