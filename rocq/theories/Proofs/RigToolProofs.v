(** The tools for several cameras that use the images all cameras see. *)
From Coq Require Import Reals Arith Lia Lra ZArith String List.
From Verif.Base Require Import Geom Outcome.
From Verif.Model Require Import Pose Covariance Solver HandEye BlockSolver MultiCamera DataSet CorrDataSet ExampleTools CameraTools.
From Verif.Spec Require Import Frames CorrDataSpec MultiSpec ToolSpec CameraSpec.
From Verif.Proofs Require Import GeomLemmas ListLemmas CorrDataProofs MultiCameraProofs ToolProofs HandEyeToolProofs CameraToolProofs.
Import ListNotations.
Local Open Scope R_scope.

Lemma Forall2_to_seq {A B} (P : A -> B -> Prop) (Q : nat -> B -> Prop) l bs :
  (forall i a b, nth_error l i = Some a -> P a b -> Q i b) -> Forall2 P l bs -> Forall2 Q (seq 0 (List.length l)) bs.
Proof.
  intros H. enough (G : forall l2 k bs, (forall i a, nth_error l2 i = Some a -> nth_error l (k + i) = Some a) -> Forall2 P l2 bs -> Forall2 Q (seq k (List.length l2)) bs).
  { apply (G l 0%nat). auto. }
  induction l2 as [ | a l2 IH]; intros k b2 N F; inversion F; subst; cbn; constructor.
  - apply (H k a); [ | assumption ]. specialize (N 0%nat a eq_refl). rewrite Nat.add_0_r in N. exact N.
  - apply (IH (S k)); [ | assumption ]. intros i x Hx. specialize (N (S i) x Hx). rewrite Nat.add_succ_r in N. exact N.
Qed.
Lemma Forall2_choice {A B} (P : A -> B -> Prop) l : (forall a, In a l -> exists b, P a b) -> exists bs, Forall2 P l bs.
Proof.
  induction l as [ | a l IH]; intros H; [ exists []; constructor | ].
  destruct (H a (or_introl eq_refl)) as [b Hb]. destruct IH as [bs Hbs]; [ intros; apply H; right; assumption | ]. exists (b :: bs). constructor; assumption.
Qed.
Lemma Forall2_in_l {A B} (P : A -> B -> Prop) l r a : Forall2 P l r -> In a l -> exists b, P a b.
Proof. intros F H. induction F as [ | x y l r Hp F IH]; [ destruct H | ]. destruct H as [<- | H]; [ exists y; exact Hp | apply IH, H ]. Qed.

Section Tools.
  Context {image features : Type} (v : vision image features)
          (draw : image -> list vec2 -> res image) (display : image -> res unit)
          (umask : nat -> nat -> nat) (runs : nat -> block_solver).
  Variables (rig : list (camera image)) (n : nat).
  Hypotheses (Hv : orderly v) (Hr : rig <> []) (He : even rig n) (HZ : (Z.of_nat (List.length rig) < 2 ^ 32)%Z).
  Notation data := (map (fun c => data_of (pics c)) rig).

  (** What is known about image i: all cameras see it and the program takes it, or not and the program skips it. *)
  Lemma image_common cd i : corrDataSet v umask data = Ok cd -> (i < n)%nat ->
    exists m cam p, getImageCameraCount cd i = Ok m /\ getCameraCount cd = List.length rig /\
      idx data 0 = Ok (data_of (pics cam)) /\ idx (ds_tool_poses (data_of (pics cam))) i = Ok (snd p) /\ idx (ds_images (data_of (pics cam))) i = Ok (fst p) /\
      first_pose rig i (snd p) /\ first_picture rig i (fst p) /\
      (m = List.length rig -> exists css, all_see v rig i css /\ mapM (fun c => getCorrespondenceSet cd c i) (seq 0 (List.length rig)) = Ok css) /\
      (m <> List.length rig -> forall css, ~ all_see v rig i css).
  Proof.
    intros Ecd Hi. destruct (corr_data_set v umask rig n Hv Hr He) as (cd' & E & A & B & F & G). rewrite E in Ecd. injection Ecd as ->.
    destruct (G i Hi HZ) as (m & Em & Cn). destruct (data_first rig n Hr He) as (cam & H0 & E0 & L0).
    destruct (nth_error (pics cam) i) as [p | ] eqn:Ep; [ | apply nth_error_None in Ep; lia ].
    exists m, cam, p. split; [ exact Em | ]. split; [ exact A | ]. split; [ exact E0 | ].
    split; [ apply idx_some; cbn; rewrite nth_error_map, Ep; reflexivity | ]. split; [ apply idx_some; cbn; rewrite nth_error_map, Ep; reflexivity | ].
    destruct (first_of rig cam i p H0 Ep) as [X Y]. split; [ exact X | ]. split; [ exact Y | ]. split.
    - intros ->. pose proof (proj1 (count_all _ _) Cn) as Al. destruct (Forall2_choice _ _ Al) as (css & F2). exists css. split; [ exact F2 | ].
      apply Forall2_mapM. refine (Forall2_to_seq _ _ _ _ _ F2). intros c cm cs Hc (q & Eq & S). exact (proj2 (proj1 (F c i cm q Hc Eq) cs S)).
    - intros N css S. apply N. refine (count_unique _ _ _ _ Cn (proj2 (count_all _ _) _)). intros a Ha. exact (Forall2_in_l _ _ _ _ S Ha).
  Qed.
  Lemma data_count cd : corrDataSet v umask data = Ok cd -> getImageCount cd = n.
  Proof. intros Ecd. destruct (corr_data_set v umask rig n Hv Hr He) as (cd' & E & A & B & _). congruence. Qed.

  Definition as_kept (W : iso) (k : nat * (iso * list (list (correspondence vec2)))) : iso * iso * list (list (correspondence vec2)) :=
    (iso_mul (fst (snd k)) W, fst (snd k), snd (snd k)).
  Lemma step_images cd W : corrDataSet v umask data = Ok cd ->
    exists kept, chosen (common v rig) (seq 0 n) kept /\ stepImages data cd W = Ok (map (as_kept W) kept).
  Proof.
    intros Ecd. unfold stepImages. rewrite (data_count cd Ecd).
    match goal with |- context [foldM ?f (seq 0 n) []] =>
      destruct (foldM_seq_inv (fun i st => exists kept, chosen (common v rig) (seq 0 i) kept /\ st = map (as_kept W) kept) f 0 n []) as (st & Est & (kept & Ch & ->)) end.
    - exists []. split; [ constructor | reflexivity ].
    - intros i st Hi (kept & Ch & ->). cbn in Hi.
      destruct (image_common cd i Ecd) as (m & cam & p & -> & -> & -> & Et & _ & Fp & _ & Yes & No); [ lia | ]. cbn [bind]. rewrite Et. cbn [bind].
      rewrite seq_S. cbn [Nat.add]. destruct (Nat.eqb_spec m (List.length rig)) as [Em | Nm].
      + destruct (Yes Em) as (css & S & ->). cbn [bind]. eexists. split; [ reflexivity | ]. exists (kept ++ [(i, (snd p, css))]). split.
        * apply chosen_snoc; [ exact Ch | ]. split; [ exact Fp | exact S ].
        * rewrite map_app. reflexivity.
      + eexists. split; [ reflexivity | ]. exists kept. split; [ | reflexivity ]. apply chosen_snoc_no; [ exact Ch | ]. intros x [_ S]. exact (No Nm _ S).
    - exists kept. split; [ exact Ch | exact Est ].
  Qed.

  Definition only_of (fix_first : bool) (W : iso) (kept : list (nat * (iso * list (list (correspondence vec2))))) : only_problem :=
    OP fix_first (map intr_of rig) (map (fun c => map snd (of_nth c kept)) (seq 0 (List.length rig)))
       (map (fun k => iso_mul (fst (snd k)) W) kept) (map pose_of rig).
  Definition wrist_of (W : iso) (kept : list (nat * (iso * list (list (correspondence vec2))))) (Cs : list iso) : wrist_problem :=
    WP (map intr_of rig) (map (fun k => fst (snd k)) kept) (map (fun c => map snd (of_nth c kept)) (seq 0 (List.length rig))) W Cs.
  Notation tool := (stepTool v draw display umask runs).
  Lemma step_stages solve solve_wrist fix_first W o printed w printed' shown :
    tool solve solve_wrist fix_first W (map input rig) = Ok (o, printed, w, printed', shown) ->
    exists kept, chosen (common v rig) (seq 0 n) kept /\
      optimizeOnly solve (only_of fix_first W kept) = Ok o /\ printedCameras (or_base_to_camera o) (List.length rig) = Ok printed /\
      optimizeWrist solve_wrist (wrist_of W kept (or_base_to_camera o)) = Ok w /\ printedCameras (wr_base_to_camera w) (List.length rig) = Ok printed' /\
      stepReprojections draw display runs data (map (fun k => fst (snd k)) kept) (wr_wrist_to_target w) (wr_base_to_camera w) (map intr_of rig)
        (map (fun c => map snd (of_nth c kept)) (seq 0 (List.length rig))) (List.length rig) = Ok shown.
  Proof.
    unfold stepTool. rewrite camera_data, intr_input, pose_input, !map_length. cbn [bind].
    destruct (corrDataSet v umask data) as [cd | |] eqn:Ecd; cbn [bind]; try discriminate.
    destruct (step_images cd W Ecd) as (kept & Ch & ->). cbn [bind].
    replace (map (ofCamera (map (as_kept W) kept)) (seq 0 (List.length rig))) with (map (fun c => map snd (of_nth c kept)) (seq 0 (List.length rig)))
      by (apply map_ext; intros c; unfold ofCamera, of_nth; rewrite !map_map; reflexivity).
    rewrite !map_map. cbn [as_kept fst snd].
    destruct (optimizeOnly solve _) as [o' | |] eqn:Eo; cbn [bind]; try discriminate.
    destruct (printedCameras (or_base_to_camera o') _) as [p1 | |] eqn:Ep; cbn [bind]; try discriminate.
    destruct (optimizeWrist _ _) as [w' | |] eqn:Ew; cbn [bind]; try discriminate.
    destruct (printedCameras (wr_base_to_camera w') _) as [p2 | |] eqn:Ep'; cbn [bind]; try discriminate.
    destruct (stepReprojections _ _ _ _ _ _ _ _ _ _) as [sh | |] eqn:Es; cbn [bind]; try discriminate.
    intros H. injection H as -> -> -> -> ->. exists kept. repeat split; auto.
  Qed.
  Lemma only_of_sizes f W kept : only_sizes (only_of f W kept).
  Proof.
    unfold only_sizes, only_of. cbn [op_base_to_camera_guess op_intr op_image_observations op_base_to_target_guess]. rewrite !map_length, seq_length.
    split; [ reflexivity | ]. split; [ reflexivity | ]. intros c Hc. erewrite nth_of_error by (rewrite nth_error_map, (nth_error_nth' _ 0%nat) by (rewrite seq_length; exact Hc); reflexivity).
    unfold of_nth. rewrite !map_length. reflexivity.
  Qed.
  Lemma wrist_of_sizes W kept Cs : List.length Cs = List.length rig -> wrist_sizes (wrist_of W kept Cs).
  Proof.
    intros L. unfold wrist_sizes, wrist_of. cbn [wp_base_to_camera_guess wp_intr wp_image_observations wp_wrist_poses]. rewrite !map_length, seq_length.
    split; [ congruence | ]. split; [ congruence | ]. rewrite L. intros c Hc. erewrite nth_of_error by (rewrite nth_error_map, (nth_error_nth' _ 0%nat) by (rewrite seq_length; exact Hc); reflexivity).
    unfold of_nth. rewrite !map_length. reflexivity.
  Qed.
  Lemma nth_obs c i kept : (c < List.length rig)%nat ->
    nth i (nth c (map (fun c => map snd (of_nth c kept)) (seq 0 (List.length rig))) []) [] = snd (nth i (of_nth c kept) (iso_id, [])).
  Proof.
    intros Hc. erewrite (nth_of_error _ c) by (rewrite nth_error_map, (nth_error_nth' _ 0%nat) by (rewrite seq_length; exact Hc); reflexivity).
    rewrite seq_nth by exact Hc. cbn [Nat.add]. apply nth_snd.
  Qed.
  (** Errors of the first step: target i, camera c. *)
  Lemma only_errors f W kept C T Cs Ts : 
    (forall c, (c < List.length rig)%nat -> C c = nth c Cs iso_id) -> (forall i, (i < List.length kept)%nat -> T i = nth i Ts iso_id) ->
    map (only_error (only_of f W kept) C T) (only_views (only_of f W kept)) =
    flat_map (fun i => flat_map (fun c => map (seen_error (nth c (map intr_of rig) intr0) (iso_mul (iso_inv (nth c Cs iso_id)) (nth i Ts iso_id)))
      (snd (nth i (of_nth c kept) (iso_id, [])))) (seq 0 (List.length rig))) (seq 0 (List.length kept)).
  Proof.
    intros HC HT. unfold only_views, views, image_major. rewrite map_flat_map, flat_map_flat_map.
    cbn [only_of op_base_to_camera_guess op_base_to_target_guess op_image_observations]. rewrite !map_length.
    apply flat_map_ext_in'. intros i Hi. apply in_seq in Hi. rewrite flat_map_map. apply flat_map_ext_in'. intros c Hc. apply in_seq in Hc.
    cbn [fst snd]. rewrite map_map, nth_obs by lia. apply map_ext. intros x. unfold only_error. cbn [only_of op_intr]. rewrite HC, HT by lia. reflexivity.
  Qed.
  Lemma wrist_errors W kept Cs C W' Cs' : List.length Cs = List.length rig ->
    (forall c, (c < List.length rig)%nat -> C c = nth c Cs' iso_id) ->
    map (wrist_error (wrist_of W kept Cs) C W') (wrist_views (wrist_of W kept Cs)) =
    flat_map (fun c => camera_errors (nth c (map intr_of rig) intr0) (nth c Cs' iso_id) W' (of_nth c kept)) (seq 0 (List.length rig)).
  Proof.
    intros L HC. unfold wrist_views, views, camera_major. rewrite map_flat_map, flat_map_flat_map.
    cbn [wrist_of wp_base_to_camera_guess wp_wrist_poses wp_image_observations]. rewrite !map_length, L.
    apply flat_map_ext_in'. intros c Hc. apply in_seq in Hc. rewrite flat_map_map, camera_errors_nth. replace (List.length (of_nth c kept)) with (List.length kept) by (unfold of_nth; rewrite map_length; reflexivity).
    apply flat_map_ext_in'. intros i Hi. apply in_seq in Hi. cbn [fst snd]. rewrite map_map, nth_obs by lia. rewrite (nth_snd _ _ iso_id).
    apply map_ext. intros x. unfold wrist_error. cbn [wrist_of wp_intr wp_wrist_poses]. rewrite HC by lia. unfold of_nth. rewrite map_map. reflexivity.
  Qed.

  Notation first_errors kept Cs Ts :=
    (flat_map (fun i => flat_map (fun c => map (seen_error (nth c (map intr_of rig) intr0) (iso_mul (iso_inv (nth c Cs iso_id)) (nth i Ts iso_id)))
      (snd (nth i (of_nth c kept) (iso_id, [])))) (seq 0 (List.length rig))) (seq 0 (List.length kept))).
  Lemma nth_map_seq {A} (f : nat -> A) m i d : (i < m)%nat -> nth i (map f (seq 0 m)) d = f i.
  Proof. intros Hi. apply nth_of_error. rewrite nth_error_map, (nth_error_nth' _ 0%nat) by (rewrite seq_length; exact Hi). rewrite seq_nth by exact Hi. reflexivity. Qed.
  Lemma step_calibrates solve solve_wrist fix_first W o printed w printed' shown :
    leaves_others solve ->
    (forall cam, In cam rig -> plain_pose (pose_of cam)) ->
    (forall cam p, In cam rig -> In p (pics cam) -> plain_pose (snd p)) ->
    tool solve solve_wrist fix_first W (map input rig) = Ok (o, printed, w, printed', shown) ->
    exists kept, chosen (common v rig) (seq 0 n) kept /\
    (kept <> [] -> exists blocks m0 m s,
      (forall m, (forall c, (c < List.length rig)%nat -> rigid (poseCalToEigen (read_pose m c))) ->
       map (fun b => rb_eval b m) blocks =
       first_errors kept
         (map (fun c => if andb fix_first (Nat.eqb c 0) then nth c (map pose_of rig) iso_id else iso_inv (poseCalToEigen (read_pose m c)))
           (seq 0 (List.length rig)))
         (map (fun i => poseCalToEigen (read_pose m (List.length rig + i)%nat)) (seq 0 (List.length kept)))) /\
      solve blocks m0 = (m, s) /\
      (forall c cam, nth_error rig c = Some cam -> read_pose m0 c = poseEigenToCal (iso_inv (pose_of cam))) /\
      (forall i k, nth_error kept i = Some k -> read_pose m0 (List.length rig + i) = poseEigenToCal (iso_mul (fst (snd k)) W)) /\
      or_converged o = term_convergence s /\
      or_base_to_target o = map (fun i => poseCalToEigen (read_pose m (List.length rig + i)%nat)) (seq 0 (List.length kept)) /\
      or_base_to_camera o = map (fun c => iso_inv (poseCalToEigen (read_pose m c))) (seq 0 (List.length rig)) /\
      (fix_first = true -> forall cam, nth_error rig 0 = Some cam -> nth_error (or_base_to_camera o) 0 = Some (pose_of cam)) /\
      or_initial_cost_per_obs o = initial_cost s / INR (2 * List.length blocks) /\
      or_final_cost_per_obs o = final_cost s / INR (2 * List.length blocks)) /\
    ((forall C, In C (or_base_to_camera o) -> plain_pose C) -> exists blocks m0 m s,
      (forall m, rigid (poseCalToEigen (read_pose m key_correction)) ->
       map (fun b => rb_eval b m) blocks =
       flat_map (fun c => camera_errors (nth c (map intr_of rig) intr0)
           (iso_mul (iso_inv (poseCalToEigen (read_pose m key_correction))) (nth c (or_base_to_camera o) iso_id))
           (poseCalToEigen (read_pose m key_wrist_target)) (of_nth c kept))
         (seq 0 (List.length rig))) /\
      solve_wrist blocks m0 = (m, s) /\
      (poseCalToEigen (read_pose m0 key_correction) = iso_id /\ read_pose m0 key_wrist_target = poseEigenToCal W) /\
      wr_converged w = term_convergence s /\
      wr_wrist_to_target w = poseCalToEigen (read_pose m key_wrist_target) /\
      wr_base_to_camera w = map (iso_mul (iso_inv (poseCalToEigen (read_pose m key_correction)))) (or_base_to_camera o) /\
      wr_initial_cost_per_obs w = initial_cost s / INR (2 * List.length blocks) /\
      wr_final_cost_per_obs w = final_cost s / INR (2 * List.length blocks)).
  Proof.
    intros Lo Pc Pl T. destruct (step_stages _ _ _ _ _ _ _ _ _ T) as (kept & Ch & Eo & _ & Ew & _).
    exists kept. split; [ exact Ch | ]. set (p := only_of fix_first W kept) in *. pose proof (only_of_sizes fix_first W kept) as Sz. fold p in Sz.
    assert (Ng : List.length (op_base_to_camera_guess p) = List.length rig) by apply map_length.
    assert (Nt : List.length (op_base_to_target_guess p) = List.length kept) by apply map_length.
    assert (Lc : List.length (or_base_to_camera o) = List.length rig).
    { destruct (only_returns p solve Sz) as (o' & E' & L & _). rewrite Eo in E'. injection E' as <-. congruence. }
    split.
    - intros Nk.
      assert (Nn : op_base_to_target_guess p <> []) by (intros H; apply Nk; apply map_eq_nil in H; exact H).
      destruct (only_right p Sz) as (blocks & Hb & Hs).
      { intros _ C HC. cbn [p only_of op_base_to_camera_guess] in HC. rewrite nth_error_map in HC. destruct (nth_error rig 0) as [cam | ] eqn:Ec; [ | discriminate ].
        injection HC as <-. apply Pc. exact (nth_error_In _ _ Ec). }
      destruct (Hs solve) as (m & s & o' & Es & Eo' & Cv & Bt & Bc & Ci & Cf). rewrite Eo in Eo'. injection Eo' as <-. rewrite Ng in *. rewrite Nt in *.
      assert (Fx : fix_first = true -> forall cam, nth_error rig 0 = Some cam -> nth_error (or_base_to_camera o) 0 = Some (pose_of cam)).
      { intros -> cam H0. apply (only_first_fixed p solve o (pose_of cam) Sz Lo eq_refl Nn); [ | | exact Eo ].
        - cbn [p only_of op_base_to_camera_guess]. rewrite nth_error_map, H0. reflexivity.
        - apply Pc. exact (nth_error_In _ _ H0). }
      assert (Lb : List.length blocks = List.length (only_views p)).
      { erewrite <- map_length, (Hb still_mem), map_length; [ reflexivity | intros; apply still_rigid ]. }
      rewrite <- Lb in Ci, Cf.
      exists blocks, (only_start p), m, s. split.
      { clear m Es Bt Bc Fx. intros m Rg. rewrite (Hb m Rg). apply only_errors.
        - intros c Hc. rewrite nth_map_seq by exact Hc. reflexivity.
        - intros i Hi. rewrite nth_map_seq by exact Hi. reflexivity. }
      split; [ exact Es | ]. split.
      { intros c cam Hc. apply (only_start_camera p c _ Nn). cbn [p only_of op_base_to_camera_guess]. rewrite nth_error_map, Hc. reflexivity. }
      split.
      { intros i k Hi. pose proof (only_start_target p i (iso_mul (fst (snd k)) W)) as X. unfold only_target_key in X. rewrite Ng in X. apply X.
        cbn [p only_of op_base_to_target_guess]. rewrite nth_error_map, Hi. reflexivity. }
      auto 9.
    - intros Po. set (q := wrist_of W kept (or_base_to_camera o)) in *. pose proof (wrist_of_sizes W kept _ Lc) as Sq. fold q in Sq.
      destruct (wrist_right q Sq) as (blocks & Hb & Hs).
      { intros C HC. cbn [q wrist_of wp_wrist_poses] in HC. apply in_map_iff in HC. destruct HC as ([i [Tp css]] & <- & Hk). cbn [fst snd].
        destruct (chosen_in _ _ _ Ch _ _ Hk) as [_ [(cam & pp & H0 & Hp & E) _]]. cbn [fst] in E. subst Tp.
        apply (Pl cam); [ exact (nth_error_In _ _ H0) | exact (nth_error_In _ _ Hp) ]. }
      { exact Po. }
      destruct (Hs solve_wrist) as (m & s & w' & Es & Ew' & Cv & Wt & Bc & Ci & Cf). rewrite Ew in Ew'. injection Ew' as <-.
      assert (Lb : List.length blocks = List.length (wrist_views q)).
      { erewrite <- map_length, (Hb still_mem), map_length; [ reflexivity | apply still_rigid ]. }
      rewrite <- Lb in Ci, Cf.
      exists blocks, (wrist_start q), m, s. split.
      { clear m Es Wt Bc. intros m Rg. rewrite (Hb m Rg). etransitivity;
          [ apply (wrist_errors W kept _ _ _ (map (iso_mul (iso_inv (poseCalToEigen (read_pose m key_correction)))) (or_base_to_camera o)) Lc) | ].
        2: { apply flat_map_ext_in'. intros c Hc. apply in_seq in Hc. f_equal.
          destruct (nth_error (or_base_to_camera o) c) as [C | ] eqn:EC; [ | apply nth_error_None in EC; lia ].
          rewrite (nth_of_error _ _ _ _ EC). apply nth_of_error. rewrite nth_error_map, EC. reflexivity. }
        intros c Hc. cbn [q wrist_of wp_base_to_camera_guess].
          destruct (nth_error (or_base_to_camera o) c) as [C | ] eqn:EC; [ | apply nth_error_None in EC; lia ].
          rewrite (nth_of_error _ _ _ _ EC). symmetry. apply nth_of_error. rewrite nth_error_map, EC. reflexivity. }
      split; [ exact Es | ]. split; [ split; [ apply wrist_start_correction | apply wrist_start_target ] | ]. auto 9.
  Qed.
  (** The second step keeps the cameras where they are relative to each other. *)
  Lemma step_printed solve solve_wrist fix_first W o printed w printed' shown :
    tool solve solve_wrist fix_first W (map input rig) = Ok (o, printed, w, printed', shown) ->
    exists C0 rest D0 rest', or_base_to_camera o = C0 :: rest /\ wr_base_to_camera w = D0 :: rest' /\
      printed = map (fun C => (C, iso_mul (iso_inv C0) C)) (or_base_to_camera o) /\
      printed' = map (fun D => (D, iso_mul (iso_inv D0) D)) (wr_base_to_camera w).
  Proof.
    intros T. destruct (step_stages _ _ _ _ _ _ _ _ _ T) as (kept & Ch & Eo & Ep & Ew & Ep' & _).
    assert (P : (0 < List.length rig)%nat) by (clear -Hr; destruct rig; [ contradiction | cbn; lia ]).
    assert (Lc : List.length (or_base_to_camera o) = List.length rig).
    { destruct (only_returns _ solve (only_of_sizes fix_first W kept)) as (o' & E' & L & _). rewrite Eo in E'. injection E' as <-. rewrite L. apply map_length. }
    assert (Lw : List.length (wr_base_to_camera w) = List.length rig).
    { unfold optimizeWrist in Ew. destruct (wrist_blocks _) as [b | |]; cbn [bind] in Ew; try discriminate. destruct (solve_wrist b _) as [m s].
      injection Ew as <-. cbn [wr_base_to_camera]. rewrite map_length. exact Lc. }
    destruct (printed_cameras _ _ _ Lc P Ep) as (C0 & rest & A & B). destruct (printed_cameras _ _ _ Lw P Ep') as (D0 & rest' & A' & B').
    exists C0, rest, D0, rest'. auto.
  Qed.
  Lemma step_keeps solve solve_wrist fix_first W o printed w printed' shown :
    tool solve solve_wrist fix_first W (map input rig) = Ok (o, printed, w, printed', shown) ->
    (forall C, In C (wr_base_to_camera w) -> rigid C) -> (forall C, In C (or_base_to_camera o) -> rigid C) ->
    map snd printed' = map snd printed.
  Proof.
    intros T Rw Ro. destruct (step_printed _ _ _ _ _ _ _ _ _ T) as (C0 & rest & D0 & rest' & EC & ED & -> & ->).
    destruct (step_stages _ _ _ _ _ _ _ _ _ T) as (kept & Ch & Eo & Ep & Ew & Ep' & _).
    unfold optimizeWrist in Ew. destruct (wrist_blocks _) as [b | |]; cbn [bind] in Ew; try discriminate. destruct (solve_wrist b _) as [m s].
    injection Ew as Ew. apply (f_equal wr_base_to_camera) in Ew. cbn [wr_base_to_camera wrist_of wp_base_to_camera_guess] in Ew.
    set (K := iso_inv _) in Ew. rewrite !map_map. cbn [snd]. rewrite <- Ew, map_map. apply map_ext_in. intros C HC.
    rewrite <- Ew, EC in ED. cbn [map] in ED. injection ED as <- _.
    assert (R0 : rigid C0) by (apply Ro; rewrite EC; left; reflexivity).
    assert (RK : rigid (iso_mul K C0)) by (apply Rw; rewrite <- Ew, EC; left; reflexivity).
    assert (Kr : rigid K).
    { replace K with (iso_mul (iso_mul K C0) (iso_inv C0)); [ apply rigid_mul; [ exact RK | apply rigid_inv, R0 ] | ].
      rewrite iso_mul_assoc, iso_inv_r by exact R0. apply iso_mul_id_r. }
    rewrite iso_inv_mul by assumption. rewrite !iso_mul_assoc. f_equal. rewrite <- iso_mul_assoc, iso_inv_l by exact Kr. apply iso_mul_id_l.
  Qed.
  Lemma step_both_printed solve solve_wrist fix_first W o printed w printed' shown :
    tool solve solve_wrist fix_first W (map input rig) = Ok (o, printed, w, printed', shown) ->
    (exists C0 rest D0 rest', or_base_to_camera o = C0 :: rest /\ wr_base_to_camera w = D0 :: rest' /\
      printed = map (fun C => (C, iso_mul (iso_inv C0) C)) (or_base_to_camera o) /\
      printed' = map (fun D => (D, iso_mul (iso_inv D0) D)) (wr_base_to_camera w)) /\
    ((forall C, In C (wr_base_to_camera w) -> rigid C) -> (forall C, In C (or_base_to_camera o) -> rigid C) ->
     map snd printed' = map snd printed).
  Proof. intros T. split; [ exact (step_printed _ _ _ _ _ _ _ _ _ T) | exact (step_keeps _ _ _ _ _ _ _ _ _ T) ]. Qed.
  (** Without a common image every camera is reported at the base. *)
  Lemma step_no_images solve solve_wrist fix_first W o printed w printed' shown : leaves_others solve ->
    (forall i css, ~ all_see v rig i css) ->
    tool solve solve_wrist fix_first W (map input rig) = Ok (o, printed, w, printed', shown) ->
    or_base_to_camera o = repeat iso_id (List.length rig).
  Proof.
    intros Lo N T. destruct (step_stages _ _ _ _ _ _ _ _ _ T) as (kept & Ch & Eo & _).
    destruct kept as [ | [i x] kept].
    - rewrite (only_no_images (only_of fix_first W []) solve o eq_refl Lo Eo). f_equal. apply map_length.
    - exfalso. destruct (chosen_in _ _ _ Ch i x (or_introl eq_refl)) as [_ [_ S]]. exact (N _ _ S).
  Qed.

  (** What the multi-step tool shows: the i-th kept image with the i-th picture of the first camera. *)
  Lemma step_shows solve solve_wrist fix_first W o printed w printed' shown :
    tool solve solve_wrist fix_first W (map input rig) = Ok (o, printed, w, printed', shown) ->
    exists kept, chosen (common v rig) (seq 0 n) kept /\
      Forall2 (fun x r => exists img, first_picture rig (fst x) img /\
        reprojected (runs (fst x)) (iso_mul (fst (snd (snd x))) (wr_wrist_to_target w)) img
          (combine (combine (map intr_of rig) (wr_base_to_camera w)) (snd (snd (snd x)))) r)
        (combine (seq 0 (List.length kept)) kept) shown.
  Proof.
    intros T. destruct (step_stages _ _ _ _ _ _ _ _ _ T) as (kept & Ch & Eo & _ & Ew & _ & Es). exists kept. split; [ exact Ch | ].
    assert (Lw : List.length (wr_base_to_camera w) = List.length rig).
    { destruct (only_returns _ solve (only_of_sizes fix_first W kept)) as (o' & E' & L & _). rewrite Eo in E'. injection E' as <-.
      unfold optimizeWrist in Ew. destruct (wrist_blocks _) as [b | |]; cbn [bind] in Ew; try discriminate. destruct (solve_wrist b _) as [m s].
      injection Ew as <-. cbn [wr_base_to_camera]. rewrite map_length. cbn [wrist_of wp_base_to_camera_guess]. rewrite L. apply map_length. }
    unfold stepReprojections in Es. rewrite map_length in Es. apply mapM_Forall2 in Es.
    assert (Ls : List.length (combine (seq 0 (List.length kept)) kept) = List.length kept) by (rewrite combine_length, seq_length; lia).
    rewrite <- Ls in Es at 1. refine (Forall2_seq _ _ _ _ _ Es). intros i [j k] r Hi Hs. cbn [fst snd].
    assert (X : j = i /\ nth_error kept i = Some k).
    { clear -Hi. enough (G : forall l a i j k, nth_error (combine (seq a (List.length l)) l) i = Some (j, k) -> j = (a + i)%nat /\ nth_error l i = Some k) by exact (G _ _ _ _ _ Hi).
      induction l as [ | x l IH]; intros a [ | q] j' k' E; cbn in E; try discriminate; [ injection E as <- <-; split; [ lia | reflexivity ] | ].
      destruct (IH _ _ _ _ E) as [-> Y]. split; [ lia | exact Y ]. }
    destruct X as [-> Hk]. cbn beta in Hs.
    rewrite (idx_some _ i (fst (snd k))) in Hs by (rewrite nth_error_map, Hk; reflexivity). cbn [bind] in Hs.
    match type of Hs with context [mapM ?f (seq 0 ?m)] => destruct (mapM f (seq 0 m)) as [st | |] eqn:Em; cbn [bind] in Hs; try discriminate end.
    destruct (data_first rig n Hr He) as (cam & H0 & E0 & L0). rewrite E0 in Hs. cbn [bind data_of ds_images] in Hs.
    destruct (idx (map fst (pics cam)) i) as [img | |] eqn:Ei; cbn [bind] in Hs; try discriminate.
    assert (Lk : List.length (snd (snd k)) = List.length rig).
    { destruct k as [a x]. destruct (chosen_in _ _ _ Ch a x (nth_error_In _ _ Hk)) as [_ [_ S]]. symmetry. exact (Forall2_len _ _ _ S). }
    exists img. split.
    { apply idx_inv in Ei. rewrite nth_error_map in Ei. destruct (nth_error (pics cam) i) as [p | ] eqn:Ep; [ | discriminate ]. injection Ei as <-. exists cam, p. auto. }
    assert (St : st = combine (combine (wr_base_to_camera w) (map intr_of rig)) (snd (snd k))).
    { rewrite (mapM_ok _ (fun c => (nth c (wr_base_to_camera w) iso_id, nth c (map intr_of rig) intr0, nth c (snd (snd k)) []))) in Em.
      - assert (E' := f_equal (fun r => match r with Ok x => x | _ => [] end) Em). cbn beta iota in E'. rewrite <- E'.
        assert (Lm : List.length (map intr_of rig) = List.length rig) by apply map_length.
        apply nth_ext with (d := (iso_id, intr0, [])) (d' := (iso_id, intr0, [])); [ rewrite map_length, seq_length, !combine_length; lia | ].
        intros c Hc. rewrite map_length, seq_length in Hc. rewrite nth_map_seq by exact Hc. rewrite !combine_nth by (rewrite ?combine_length; lia). reflexivity.
      - intros c Hc. apply in_seq in Hc. rewrite (idx_ok _ c iso_id) by lia. cbn [bind]. rewrite (idx_ok _ c intr0) by (rewrite map_length; lia). cbn [bind].
        rewrite (idx_some _ c (map snd (of_nth c kept))) by (rewrite nth_error_map, (nth_error_nth' _ 0%nat) by (rewrite seq_length; lia); rewrite seq_nth by lia; reflexivity).
        cbn [bind]. rewrite (idx_some _ i (nth c (snd (snd k)) [])) by (unfold of_nth; rewrite map_map, nth_error_map, Hk; reflexivity). reflexivity. }
    subst st.
    assert (P : forall {A B C} (a : list A) (b : list B) (c : list C), List.length a = List.length b -> List.length b = List.length c ->
      map (fun x => fst (fst x)) (combine (combine a b) c) = a /\ map (fun x => snd (fst x)) (combine (combine a b) c) = b /\ map snd (combine (combine a b) c) = c).
    { clear. induction a as [ | x a IH]; intros [ | y b] [ | z c] L1 L2; cbn in *; try discriminate; [ auto | ].
      destruct (IH b c) as (E1 & E2 & E3); [ lia | lia | ]. rewrite E1, E2, E3. auto. }
    destruct (P _ _ _ (wr_base_to_camera w) (map intr_of rig) (snd (snd k))) as (E1 & E2 & E3); [ rewrite map_length; exact Lw | rewrite map_length; symmetry; exact Lk | ].
    rewrite E1, E2, E3 in Hs. apply reproject_spec in Hs; [ exact Hs | rewrite map_length; exact Lw | rewrite map_length; symmetry; exact Lk ].
  Qed.

  (** ** solve_multi_camera_pnp *)
  Lemma pnp_shows shown : multiPnpTool v draw display umask runs (map input rig) = Ok shown ->
    exists kept, chosen (common v rig) (seq 0 n) kept /\
      Forall2 (fun k y => fst y = fst k /\ exists img, first_picture rig (fst k) img /\
        reprojected (runs (fst k)) (fst (snd k)) img (combine (combine (map intr_of rig) (map pose_of rig)) (snd (snd k))) (snd y)) kept shown.
  Proof.
    unfold multiPnpTool. rewrite camera_data, intr_input, pose_input, !map_length. cbn [bind].
    destruct (corrDataSet v umask data) as [cd | |] eqn:Ecd; cbn [bind]; try discriminate. rewrite (data_count cd Ecd). intros Es.
    apply (foldM_pairs _ (fun pre shown => exists kept, chosen (common v rig) pre kept /\
      Forall2 (fun k y => fst y = fst k /\ exists img, first_picture rig (fst k) img /\
        reprojected (runs (fst k)) (fst (snd k)) img (combine (combine (map intr_of rig) (map pose_of rig)) (snd (snd k))) (snd y)) kept shown)) in Es.
    - exact Es.
    - exists []. split; constructor.
    - intros pre i post sh sh' El (kept & Ch & F) St.
      assert (Hi : (i < n)%nat). { assert (In i (seq 0 n)) by (rewrite El; apply in_or_app; right; left; reflexivity). apply in_seq in H. lia. }
      destruct (image_common cd i Ecd Hi) as (m & cam & p & Em & Ec & E0 & Et & Eimg & Fp & Fi & Yes & No). rewrite Em, Ec in St. cbn [bind] in St.
      destruct (Nat.eqb_spec m (List.length rig)) as [Eq | Nm].
      + destruct (Yes Eq) as (css & S & Eg). rewrite Eg, E0 in St. cbn [bind] in St. rewrite Et, Eimg in St. cbn [bind] in St.
        destruct (reprojectCameras _ _ _ _ _ _ _ _) as [rj | |] eqn:Erj; cbn [bind] in St; try discriminate. injection St as <-.
        apply reproject_spec in Erj; [ | rewrite !map_length; reflexivity | rewrite map_length; exact (Forall2_len _ _ _ S) ].
        exists (kept ++ [(i, (snd p, css))]). split; [ apply chosen_snoc; [ exact Ch | split; assumption ] | ].
        apply Forall2_app; [ exact F | ]. constructor; [ | constructor ]. split; [ reflexivity | ]. exists (fst p). split; [ exact Fi | exact Erj ].
      + injection St as <-. exists kept. split; [ | exact F ]. apply chosen_snoc_no; [ exact Ch | ]. intros x [_ S]. exact (No Nm _ S).
  Qed.
End Tools.
