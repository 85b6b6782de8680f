(** What the texts of the tools for several cameras say. *)
From Coq Require Import Reals ZArith Arith Lia Lra Ascii String List.
From Verif.Base Require Import Geom Outcome.
From Verif.Model Require Import Pose Covariance Solver HandEye Pnp BlockSolver MultiCamera Intrinsic DataSet ExampleTools CameraTools CovReport ParamText Print PrintText ToolText.
From Verif.Spec Require Import Frames CorrDataSpec TextSpec ParamTextSpec YamlSpec PrintSpec MultiSpec UniqueSpec ToolSpec CameraSpec PrintTextSpec ToolTextSpec.
From Verif.Proofs Require Import GeomLemmas ListLemmas MultiCameraProofs ToolProofs CameraToolProofs RigToolProofs TextProofs ParamTextProofs PrintTextProofs PrintTextCopies ToolTextProofs ToolPageProofs.
Import ListNotations.
Local Open Scope string_scope.

Ltac next := apply (tokens_page _ _ [_]).
Lemma title_image i : page_of (tokens_text (printTitle80 ("REPROJECT IMAGE " ++ to_string i))) [image_title i].
Proof. apply title_page, one_line_app; [ plain | apply to_string_line ]. Qed.
Lemma estimate_page e : ordinary_estimate e -> page_of (tokens_text (printOptResults (mr_converged e) (mr_initial_cost_per_obs e) (mr_final_cost_per_obs e))) [estimate_block e].
Proof. intros (A & B & _). apply results_page; assumption. Qed.
Lemma named_line a c b : one_line a -> one_line b -> one_line (a ++ camera_called c ++ b).
Proof. intros A B. apply one_line_app; [ exact A | apply one_line_app; [ apply camera_name_line | exact B ] ]. Qed.

Lemma static_camera_page C0 c C : ordinary_pose C -> ordinary_pose (iso_mul (iso_inv C0) C) ->
  page_of (tokens_text (printTransform C "Base" (" Camera (" ++ camera_name c ++ ")") ("BASE TO CAMERA (" ++ camera_name c ++ ")") ++ printNewLine ++
    printTransform (iso_mul (iso_inv C0) C) "Camera 0" (" Camera " ++ to_string c) ("CAMERA 0 TO CAMERA (" ++ camera_name c ++ ")") ++ printNewLine)%list) (static_camera_blocks C0 (c, C)).
Proof.
  intros A B. unfold static_camera_blocks.
  next; [ apply transform_page; [ exact A | plain | apply named_line; plain | apply named_line; plain ] | ].
  next; [ exact newline_page | ].
  next; [ apply transform_page; [ exact B | plain | apply one_line_app; [ plain | apply to_string_line ] | apply named_line; plain ] | exact newline_page ].
Qed.
Lemma step_camera_page C0 c C : ordinary_pose C -> ordinary_pose (iso_mul (iso_inv C0) C) ->
  page_of (tokens_text (printTransform C "Base" ("Camera (" ++ camera_name c ++ ")") ("Base To Camera (" ++ camera_name c ++ ")") ++ printNewLine ++
    printTransform (iso_mul (iso_inv C0) C) "Camera 0" ("Camera (" ++ camera_name c ++ ")") ("Camera 0 to Camera " ++ to_string c) ++ printNewLine)%list) (step_camera_blocks C0 (c, C)).
Proof.
  intros A B. unfold step_camera_blocks.
  next; [ apply transform_page; [ exact A | plain | apply named_line; plain | apply named_line; plain ] | ].
  next; [ exact newline_page | ].
  next; [ apply transform_page; [ exact B | plain | apply named_line; plain | apply one_line_app; [ plain | apply to_string_line ] ] | exact newline_page ].
Qed.
Lemma static_image_page {image} i (r : reprojection image) : ordinary_reprojection r ->
  page_of (tokens_text (printTitle80 ("REPROJECT IMAGE " ++ to_string i) ++ multiReprojectTokens r)%list) (static_image_blocks i (rj_pnp r) (rj_camera_to_target r) (rj_pnp_camera_to_target r)).
Proof.
  intros (E & X & Y). unfold static_image_blocks, multiReprojectTokens.
  next; [ apply title_image | ]. next; [ apply estimate_page, E | ]. next; [ exact newline_page | ].
  next; [ apply transform_page; [ exact X | plain | plain | plain ] | ]. next; [ exact newline_page | ].
  next; [ apply transform_page; [ exact Y | plain | plain | plain ] | ]. next; [ exact newline_page | ].
  next; [ apply difference_page; [ exact X | exact Y | plain | plain | plain ] | exact newline_page ].
Qed.
Lemma step_image_page {image} i (r : reprojection image) : ordinary_reprojection r ->
  page_of (tokens_text (printTitle80 ("REPROJECT IMAGE " ++ to_string i) ++ stepReprojectTokens r)%list) (step_image_blocks i (rj_pnp r) (rj_camera_to_target r) (rj_pnp_camera_to_target r)).
Proof.
  intros (E & X & Y). unfold step_image_blocks, stepReprojectTokens.
  next; [ apply title_image | ]. next; [ apply estimate_page, E | ]. next; [ exact newline_page | ].
  next; [ apply transform_page; [ exact X | plain | plain | plain ] | ]. next; [ exact newline_page | ].
  next; [ apply difference_page; [ exact X | exact Y | plain | plain | plain ] | exact newline_page ].
Qed.
Lemma numbered_in {A} (l : list A) x : In x (numbered l) -> In (snd x) l.
Proof. destruct x as [i a]. intros H. exact (in_combine_r _ _ _ _ H). Qed.
Lemma numbered_map {A B} (f : A -> B) l : numbered (map f l) = map (fun x => (fst x, f (snd x))) (with_number l).
Proof.
  unfold numbered, with_number. rewrite map_length. generalize 0%nat. induction l as [|a l IH]; intros n; [ reflexivity | ]. cbn. f_equal. apply IH.
Qed.
Lemma flat_map_map' {A B C} (f : B -> list C) (g : A -> B) l : flat_map f (map g l) = flat_map (fun x => f (g x)) l.
Proof. induction l as [|a l IH]; [ reflexivity | ]. cbn. rewrite IH. reflexivity. Qed.

Lemma positions_agree {A B} (P : nat * A -> B -> Prop) (l : list A) (r : list B) a :
  Forall2 P (combine (seq a (List.length l)) l) r -> Forall2 (fun x y => fst y = fst x /\ P x (snd y)) (combine (seq a (List.length l)) l) (combine (seq a (List.length r)) r).
Proof.
  revert a r. induction l as [|x l IH]; intros a r H; cbn in H; inversion_clear H as [|? y ? r' H1 H2]; cbn; constructor; [ split; [ reflexivity | exact H1 ] | apply IH, H2 ].
Qed.
Lemma triples {A B C} (a : list A) (b : list B) (c : list C) : List.length a = List.length b -> List.length b = List.length c ->
  map (fun x => fst (fst x)) (combine (combine a b) c) = a /\ map (fun x => snd (fst x)) (combine (combine a b) c) = b /\ map snd (combine (combine a b) c) = c.
Proof.
  revert b c. induction a as [|x a IH]; intros [|y b] [|z c] L1 L2; cbn in *; try discriminate; [ auto | ].
  destruct (IH b c) as (E1 & E2 & E3); [ lia | lia | ]. rewrite E1, E2, E3. auto.
Qed.
Lemma Forall2_map_r {A B C} (P : A -> C -> Prop) (f : B -> C) l r : Forall2 (fun a b => P a (f b)) l r -> Forall2 P l (map f r).
Proof. induction 1; constructor; assumption. Qed.
Lemma Forall2_weaken {A B} (P Q : A -> B -> Prop) l r : (forall a b, In a l -> P a b -> Q a b) -> Forall2 P l r -> Forall2 Q l r.
Proof. intros H F. induction F; constructor; [ apply H; [ left; reflexivity | assumption ] | apply IHF; intros; apply H; [ right; assumption | assumption ] ]. Qed.

Lemma static_cameras_page Cs C0 : In C0 Cs -> ordinary_cameras Cs ->
  page_of (tokens_text (flat_map (fun x : nat * (iso * iso) => let '(c, (t, t0)) := x in
       (printTransform t "Base" (" Camera (" ++ camera_name c ++ ")") ("BASE TO CAMERA (" ++ camera_name c ++ ")") ++ printNewLine ++
       printTransform t0 "Camera 0" (" Camera " ++ to_string c) ("CAMERA 0 TO CAMERA (" ++ camera_name c ++ ")") ++ printNewLine)%list)
       (numbered (map (fun C => (C, iso_mul (iso_inv C0) C)) Cs)))) (flat_map (static_camera_blocks C0) (with_number Cs)).
Proof.
  intros I0 H. rewrite numbered_map, flat_map_map'. apply tokens_flat. intros [c C] Hx. cbn [fst snd]. pose proof (numbered_in Cs (c, C) Hx) as Hc. cbn [snd] in Hc.
  apply static_camera_page; [ exact (proj1 (H C C Hc Hc)) | exact (proj2 (H C0 C I0 Hc)) ].
Qed.
Lemma step_cameras_page Cs C0 : In C0 Cs -> ordinary_cameras Cs ->
  page_of (tokens_text (stepCameraTokens (map (fun C => (C, iso_mul (iso_inv C0) C)) Cs))) (flat_map (step_camera_blocks C0) (with_number Cs)).
Proof.
  intros I0 H. unfold stepCameraTokens. rewrite numbered_map, flat_map_map'. apply tokens_flat. intros [c C] Hx. cbn [fst snd]. pose proof (numbered_in Cs (c, C) Hx) as Hc. cbn [snd] in Hc.
  apply step_camera_page; [ exact (proj1 (H C C Hc Hc)) | exact (proj2 (H C0 C I0 Hc)) ].
Qed.

Section RigPages.
  Context {image features : Type} (v : vision image features) (draw : image -> list vec2 -> res image) (display : image -> res unit)
          (umask : nat -> nat -> nat) (runs : nat -> block_solver) (rig : list (camera image)) (n : nat).
  Hypotheses (Hv : orderly v) (Hr : rig <> []) (He : even rig n).

  (** ** multi_static_camera_extrinsic *)
  Lemma static_page u solve cov W0 r printed shown : (forall cam p, In cam rig -> In p (pics cam) -> plain_pose (snd p)) ->
    multiStaticTool v draw display umask runs u solve cov W0 (map input rig) = Ok (r, printed, shown) ->
    honest_blocks solve -> ordinary_cost (sr_initial_cost_per_obs r) -> ordinary_cost (sr_final_cost_per_obs r) ->
    ordinary_pose (sr_wrist_to_target r) -> ordinary_cameras (sr_base_to_camera r) -> (forall y, In y shown -> ordinary_reprojection (snd y)) ->
    exists sels images pages C0 rest, Forall2 (fun cam sel => chosen (sees_shown v) (pics cam) sel) rig sels /\
      chosen (fun i seen => (2 <= List.length seen)%nat /\ seeing v rig (sr_base_to_camera r) i seen) (seq 0 n) images /\
      sr_base_to_camera r = C0 :: rest /\
      page_of (multiText r printed shown)
        ([results_block (sr_converged r) (sr_initial_cost_per_obs r) (sr_final_cost_per_obs r); blank_line;
          transform_block "WRIST TO TARGET" "Wrist" "Target" (sr_wrist_to_target r); blank_line] ++
         flat_map (static_camera_blocks C0) (with_number (sr_base_to_camera r)) ++ [title_block "REPROJECTION ERROR"] ++ concat pages)%list /\
      Forall2 (fun x page => exists T s others e, first_pose rig (fst x) T /\ snd x = s :: others /\
        let C := snd (fst s) in
        optimizeMpnp (runs (fst x)) (MP (map (fun s => intr_of (fst (fst s))) (snd x)) (map (fun s => snd (fst s)) (snd x)) (map snd (snd x)) (iso_mul T (sr_wrist_to_target r))) = Ok e /\
        page = static_image_blocks (fst x) e (iso_mul (iso_inv C) (iso_mul T (sr_wrist_to_target r))) (iso_mul (iso_inv C) (mr_base_to_target e))) images pages /\
      let errors := flat_map (fun x => camera_errors (fst (fst x)) (snd x) (sr_wrist_to_target r) (snd (fst x))) (combine (combine (map intr_of rig) (map at_poses sels)) (sr_base_to_camera r)) in
      sr_final_cost_per_obs r = (half_squares (concat errors) / INR (2 * List.length errors))%R.
  Proof.
    intros Pl T Ho O1 O2 O3 O4 O5.
    destruct (static_calibrates v draw display umask runs rig n Hv Hr He u solve cov W0 r printed shown Pl T) as (sels & bl & m0 & m & s & Ch & Hb & Hs & _ & _ & _ & Ew & Ec & _ & Ef).
    destruct (static_printed v draw display umask runs rig n Hv Hr He u solve cov W0 r printed shown T) as (C0 & rest & E0 & Ep).
    destruct (static_shows v draw display umask runs rig n Hv Hr He u solve cov W0 r printed shown T) as (images & Im & Sh).
    set (pages := map (fun y => static_image_blocks (fst y) (rj_pnp (snd y)) (rj_camera_to_target (snd y)) (rj_pnp_camera_to_target (snd y))) shown).
    exists sels, images, pages, C0, rest. split; [ exact Ch | ]. split; [ exact Im | ]. split; [ exact E0 | ]. split; [ | split ].
    - unfold multiText. next; [ apply results_page; assumption | ]. next; [ exact newline_page | ].
      next; [ apply transform_page; [ exact O3 | plain | plain | plain ] | ]. next; [ exact newline_page | ].
      apply tokens_page; [ rewrite Ep; apply static_cameras_page; [ rewrite E0; left; reflexivity | exact O4 ] | ].
      next; [ apply title_page; plain | ]. unfold pages. rewrite <- flat_map_concat_map. apply tokens_flat.
      intros [i y] Hy. apply static_image_page. exact (O5 _ Hy).
    - unfold pages. clear -Sh. induction Sh as [|x y l l' (Ei & P & s & rest & p & F & Es & _ & Rp) Sh IH]; constructor; [ | exact IH ].
      exists P, s, rest, (rj_pnp (snd y)). split; [ exact F | split; [ exact Es | ] ]. cbv zeta.
      destruct Rp as (k & C & cs & o & Ecs & _ & EX & _ & Em & EY & _). unfold views_of in Ecs, Em. rewrite Es in Ecs. cbn [map] in Ecs. injection Ecs as _ <- _ _.
      rewrite !map_map in Em. cbn [fst snd] in Em. split; [ exact Em | ]. rewrite Ei, EX, EY. reflexivity.
    - cbv zeta. rewrite Ef. pose proof (Ho bl m0) as H. rewrite Hs in H. rewrite H. rewrite flat_map_concat_map.
      assert (Eb : map (fun b => rb_eval b m) bl = flat_map (fun x => camera_errors (fst (fst x)) (snd x) (sr_wrist_to_target r) (snd (fst x))) (combine (combine (map intr_of rig) (map at_poses sels)) (sr_base_to_camera r))).
      { rewrite Ew, Ec. apply Hb. intros c Hc. apply rigid_uninv. destruct (O4 (iso_inv (poseCalToEigen (read_pose m c))) (iso_inv (poseCalToEigen (read_pose m c)))) as [[R _] _]; [ | | exact R ];
        rewrite Ec; apply in_map_iff; exists c; (split; [ reflexivity | apply in_seq; lia ]). }
      rewrite <- Eb, map_length. reflexivity.
  Qed.

  (** ** multi_static_camera_multi_step_extrinsic *)
  Lemma step_page solve solve_wrist fix_first W o printed w printed' shown : (Z.of_nat (List.length rig) < 2 ^ 32)%Z ->
    stepTool v draw display umask runs solve solve_wrist fix_first W (map input rig) = Ok (o, printed, w, printed', shown) ->
    ordinary_cost (or_initial_cost_per_obs o) -> ordinary_cost (or_final_cost_per_obs o) -> ordinary_cameras (or_base_to_camera o) ->
    ordinary_cost (wr_initial_cost_per_obs w) -> ordinary_cost (wr_final_cost_per_obs w) -> ordinary_cameras (wr_base_to_camera w) ->
    ordinary_pose (wr_wrist_to_target w) -> (forall y, In y shown -> ordinary_reprojection y) ->
    exists kept pages C0 Cs D0 Ds, chosen (common v rig) (seq 0 n) kept /\ or_base_to_camera o = C0 :: Cs /\ wr_base_to_camera w = D0 :: Ds /\
      page_of (stepText o printed w printed' shown)
        ([title_block "Running calibration for only cameras"; results_block (or_converged o) (or_initial_cost_per_obs o) (or_final_cost_per_obs o); blank_line] ++
         flat_map (step_camera_blocks C0) (with_number (or_base_to_camera o)) ++
         [title_block "Running calibration for wrist only using camera only results";
          results_block (wr_converged w) (wr_initial_cost_per_obs w) (wr_final_cost_per_obs w); blank_line;
          transform_block "Wrist to Target" "Wrist" "Target" (wr_wrist_to_target w); blank_line] ++
         flat_map (step_camera_blocks D0) (with_number (wr_base_to_camera w)) ++ [title_block "REPROJECTION ERROR"] ++ concat pages)%list /\
      Forall2 (fun x page => let '(position, (i, (T, css))) := x in exists e,
        optimizeMpnp (runs position) (MP (map intr_of rig) (wr_base_to_camera w) css (iso_mul T (wr_wrist_to_target w))) = Ok e /\
        page = step_image_blocks position e (iso_mul (iso_inv D0) (iso_mul T (wr_wrist_to_target w))) (iso_mul (iso_inv D0) (mr_base_to_target e)))
        (with_number kept) pages.
  Proof.
    intros HZ T O1 O2 O3 O4 O5 O6 O7 O8.
    destruct (step_both_printed v draw display umask runs rig n Hv Hr He HZ solve solve_wrist fix_first W o printed w printed' shown T) as [(C0 & Cs & D0 & Ds & EC & ED & Ep & Ep') _].
    destruct (step_shows v draw display umask runs rig n Hv Hr He HZ solve solve_wrist fix_first W o printed w printed' shown T) as (kept & Ch & Sh).
    assert (Lw : List.length (wr_base_to_camera w) = List.length rig).
    { destruct (step_stages v draw display umask runs rig n Hv Hr He HZ _ _ _ _ _ _ _ _ _ T) as (kept' & _ & Eo & _ & Ew & _). destruct (only_returns _ solve (only_of_sizes rig fix_first W kept')) as (o' & E' & L & _). rewrite Eo in E'. injection E' as <-.
      unfold optimizeWrist in Ew. destruct (wrist_blocks _) as [b | |]; cbn [bind] in Ew; try discriminate. destruct (solve_wrist b _) as [m s].
      injection Ew as <-. cbn [wr_base_to_camera]. rewrite map_length. cbn [wrist_of wp_base_to_camera_guess]. rewrite L. apply map_length. }
    set (pages := map (fun y => step_image_blocks (fst y) (rj_pnp (snd y)) (rj_camera_to_target (snd y)) (rj_pnp_camera_to_target (snd y))) (numbered shown)).
    exists kept, pages, C0, Cs, D0, Ds. split; [ exact Ch | ]. split; [ exact EC | ]. split; [ exact ED | ]. split.
    - unfold stepText. next; [ apply title_page; plain | ]. next; [ apply results_page; assumption | ]. next; [ exact newline_page | ].
      apply tokens_page; [ rewrite Ep; apply step_cameras_page; [ rewrite EC; left; reflexivity | exact O3 ] | ].
      next; [ apply title_page; plain | ]. next; [ apply results_page; assumption | ]. next; [ exact newline_page | ].
      next; [ apply transform_page; [ exact O7 | plain | plain | plain ] | ]. next; [ exact newline_page | ].
      apply tokens_page; [ rewrite Ep'; apply step_cameras_page; [ rewrite ED; left; reflexivity | exact O6 ] | ].
      next; [ apply title_page; plain | ]. unfold pages. rewrite <- flat_map_concat_map. apply tokens_flat.
      intros [i y] Hy. apply step_image_page, O8. exact (numbered_in _ _ Hy).
    - unfold pages. apply Forall2_map_r. refine (Forall2_weaken _ _ _ _ _ (positions_agree _ _ _ _ Sh)).
      intros [i [j [P css]]] [i' y] Hx [Ei (img & _ & Rp)]. cbn [fst snd] in *. subst i'.
      pose proof (in_combine_r _ _ _ _ Hx) as Hk. destruct (chosen_in _ _ _ Ch j (P, css) Hk) as [_ [_ S]]. cbn [snd] in S. apply Forall2_len in S.
      destruct (triples (map intr_of rig) (wr_base_to_camera w) css) as (T1 & T2 & T3); [ rewrite map_length; symmetry; exact Lw | rewrite Lw; exact S | ].
      destruct Rp as (k & C & cs & rest & Ecs & _ & EX & _ & Em & EY & _). rewrite T1, T2, T3 in Em. exists (rj_pnp y). split; [ exact Em | ].
      apply (f_equal (map (fun x => snd (fst x)))) in Ecs. rewrite T2, ED in Ecs. cbn [map fst snd] in Ecs. injection Ecs as <- _. rewrite EX, EY. reflexivity.
  Qed.

  (** ** solve_multi_camera_pnp *)
  Lemma pnp_image_page i (T : iso) (e : mpnp_result) : ordinary_pose T -> ordinary_estimate e ->
    page_of (tokens_text (printTitle80 ("REPROJECT IMAGE " ++ to_string i) ++
       printOptResults (mr_converged e) (mr_initial_cost_per_obs e) (mr_final_cost_per_obs e) ++ printNewLine ++
       printTransform T "Base" "Target" "BASE TO TARGET" ++ printNewLine ++
       printTransform (mr_base_to_target e) "Base" "Target" "PNP" ++ printNewLine ++
       printTransformDiff T (mr_base_to_target e) "Base" "Target" "PNP Diff" ++ printNewLine)%list) (pnp_image_blocks i e T (mr_base_to_target e)).
  Proof.
    intros HT HE. pose proof HE as (_ & _ & P). unfold pnp_image_blocks.
    next; [ apply title_image | ]. next; [ apply estimate_page, HE | ]. next; [ exact newline_page | ].
    next; [ apply transform_page; [ exact HT | plain | plain | plain ] | ]. next; [ exact newline_page | ].
    next; [ apply transform_page; [ exact P | plain | plain | plain ] | ]. next; [ exact newline_page | ].
    next; [ apply difference_page; [ exact HT | exact P | plain | plain | plain ] | exact newline_page ].
  Qed.
  Lemma multi_pnp_page shown cam0 : (Z.of_nat (List.length rig) < 2 ^ 32)%Z -> nth_error rig 0 = Some cam0 ->
    multiPnpTool v draw display umask runs (map input rig) = Ok shown ->
    (forall p, In p (pics cam0) -> ordinary_pose (snd p)) -> (forall y, In y shown -> ordinary_estimate (rj_pnp (snd y))) ->
    exists kept pages, chosen (common v rig) (seq 0 n) kept /\
      page_of (multiPnpText (data_of (pics cam0)) shown) (concat pages) /\
      Forall2 (fun x page => let '(i, (T, css)) := x in exists e,
        optimizeMpnp (runs i) (MP (map intr_of rig) (map pose_of rig) css T) = Ok e /\ page = pnp_image_blocks i e T (mr_base_to_target e)) kept pages.
  Proof.
    intros HZ H0 E OT OE. destruct (pnp_shows v draw display umask runs rig n Hv Hr He HZ shown E) as (kept & Ch & Sh).
    exists kept. exists (map (fun y => pnp_image_blocks (fst y) (rj_pnp (snd y)) (nth (fst y) (map snd (pics cam0)) iso_id) (mr_base_to_target (rj_pnp (snd y)))) shown).
    split; [ exact Ch | ]. split.
    - unfold multiPnpText. rewrite <- flat_map_concat_map. apply tokens_flat. intros [i y] Hy. cbn [fst snd data_of ds_tool_poses]. apply pnp_image_page; [ | exact (OE _ Hy) ].
      destruct (le_lt_dec (List.length (map snd (pics cam0))) i) as [L|L]; [ rewrite nth_overflow by exact L; split; [ exact rigid_id | ] | ].
      { cbn [tr iso_id]. rewrite norm_vzero. apply pow_le. lra. }
      pose proof (nth_In (map snd (pics cam0)) iso_id L) as Hi. apply in_map_iff in Hi as (q & <- & Hq). exact (OT q Hq).
    - apply Forall2_map_r. refine (Forall2_weaken _ _ _ _ _ Sh). intros [i [P css]] [i' y] Hk [Ei (img & _ & Rp)]. cbn [fst snd] in *. subst i'.
      destruct (chosen_in _ _ _ Ch i (P, css) Hk) as [_ [(c & q & Hc & Hq & EP) S]]. cbn [fst snd] in *. apply Forall2_len in S.
      destruct (triples (map intr_of rig) (map pose_of rig) css) as (T1 & T2 & T3); [ rewrite !map_length; reflexivity | rewrite map_length; exact S | ].
      destruct Rp as (k & C & cs & rest & Ecs & _ & EX & _ & Em & EY & _). rewrite T1, T2, T3 in Em. exists (rj_pnp y). split; [ exact Em | ].
      rewrite H0 in Hc. injection Hc as <-. rewrite (nth_error_nth (map snd (pics cam0)) i iso_id (x := P)); [ reflexivity | ]. rewrite nth_error_map, Hq. cbn. congruence.
  Qed.
End RigPages.
