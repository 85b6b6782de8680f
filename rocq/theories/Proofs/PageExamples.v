(** Runs of the tools for several cameras whose texts are ordinary, for C113, and two of their labels. *)
From Coq Require Import Reals ZArith Arith Lia Lra String List.
From Verif.Base Require Import Geom Outcome.
From Verif.Model Require Import Pose Covariance Solver HandEye Pnp BlockSolver MultiCamera Intrinsic DataSet CorrDataSet ExampleTools CameraTools CovReport ParamText Print PrintText ToolText.
From Verif.Spec Require Import Frames PinHole CorrDataSpec TextSpec ParamTextSpec MultiSpec UniqueSpec ToolSpec CameraSpec PrintTextSpec ToolTextSpec.
From Verif.Proofs Require Import GeomLemmas ListLemmas PoseProofs HandEyeProofs CorrDataProofs MultiCameraProofs ToolProofs HandEyeToolProofs SceneProofs ScenesProofs
  CameraToolProofs RigToolProofs RigSceneProofs UniqueLemmas UniqueMultiExamples ToolTextProofs ToolPageProofs RigPageProofs.
Import ListNotations.
Local Open Scope R_scope.

(** ** Three cameras. Camera 0 does not see the target in the first picture, and everybody sees it in the second. *)
Definition pg_rig : list (camera (option iso)) :=
  [Camera [(None, iso_trans vzero); (Some (iso_trans (V3 (- (1/2)) 0 0)), iso_trans (V3 (1/2) 0 0))] sc_intr (iso_trans vzero);
   Camera [(Some (iso_trans (V3 1 0 0)), iso_trans vzero); (Some (iso_trans (V3 (1/2) 0 0)), iso_trans (V3 (1/2) 0 0))] sc_intr (iso_trans (V3 1 0 0));
   Camera [(Some (iso_trans (V3 0 1 0)), iso_trans vzero); (Some (iso_trans (V3 (- (1/2)) 1 0)), iso_trans (V3 (1/2) 0 0))] sc_intr (iso_trans (V3 0 1 0))].
Definition pg_run : block_solver := fun _ m => (m, Summary true 0 0).
Lemma pg_run_still : stands_still pg_run.
Proof. intros b m. reflexivity. Qed.
Lemma pg_rig_fits : orderly sc_vision /\ pg_rig <> [] /\ even pg_rig 2 /\ (Z.of_nat (List.length pg_rig) < 2 ^ 32)%Z /\
  (forall cam, In cam pg_rig -> plain_pose (pose_of cam)) /\
  (forall cam p, In cam pg_rig -> In p (pics cam) -> plain_pose (snd p)) /\
  (forall cam, In cam pg_rig -> exists p c cs, In p (pics cam) /\ sees_shown sc_vision p (c :: cs)).
Proof.
  split; [ | split; [ discriminate | split; [ | split; [ cbn; lia | split; [ | split ] ] ] ] ].
  - split; [ | split ]; repeat intro; exact I.
  - intros c [<- | [<- | [<- | []]]]; reflexivity.
  - intros c [<- | [<- | [<- | []]]]; apply plain_id_tr.
  - intros c p [<- | [<- | [<- | []]]] Hp; cbn [pics] in Hp; destruct Hp as [<- | [<- | []]]; apply plain_id_tr.
  - assert (X : forall d T, exists c cs, sees_shown sc_vision (Some (iso_trans d), T) (c :: cs)).
    { intros d T. pose proof (sc_shown d T) as X. unfold sc_seen in X. cbn [map sc_points] in X. eexists. eexists. exact X. }
    intros c [<- | [<- | [<- | []]]]; cbn [pics];
      match goal with |- context [In _ [_; (Some (iso_trans ?d), ?T)]] => destruct (X d T) as (c & cs & Y); exists (Some (iso_trans d), T), c, cs; split; [ right; left; reflexivity | exact Y ] end.
Qed.
Lemma trans_mul a b : iso_mul (iso_trans a) (iso_trans b) = iso_trans (vadd a b).
Proof. destruct a, b. unfold iso_mul, iso_trans. cbn [lin tr]. geo_unfold. unfold I3. cbn. f_equal; f_equal; ring. Qed.
Lemma trans_inv a : iso_inv (iso_trans a) = iso_trans (vsub vzero a).
Proof. destruct a. unfold iso_inv, iso_trans. cbn [lin tr]. geo_unfold. unfold I3, mT. cbn. f_equal; f_equal; ring. Qed.
Lemma trans_ordinary a b c : -3 <= a <= 3 -> -3 <= b <= 3 -> -3 <= c <= 3 -> ordinary_pose (iso_trans (V3 a b c)).
Proof.
  intros A B C. split; [ apply rigid_trans | ]. cbn [tr iso_trans].
  assert (H : norm (V3 a b c) <= 6).
  { unfold norm. replace 6 with (sqrt (6 * 6)) by (apply sqrt_square; lra). apply sqrt_le_1_alt. unfold dot. cbn [vx vy vz]. nra. }
  assert (8 <= 2 ^ 900); [ | lra ]. replace 8 with (2 ^ 3) by lra. apply Rle_pow; [ lra | lia ].
Qed.
Lemma zero_ordinary : ordinary_cost 0.
Proof. split; [ lra | apply pow_le; lra ]. Qed.
(** The pictures show the target where it is. *)
Lemma pg_seen cam p d : In cam pg_rig -> In p (pics cam) -> fst p = Some (iso_trans d) ->
  iso_mul (iso_inv (pose_of cam)) (iso_mul (snd p) sc_target) = iso_trans (vsub (V3 0 0 1) d) /\ vz d = 0.
Proof.
  intros [<- | [<- | [<- | []]]] Hp; cbn [pics] in Hp; destruct Hp as [<- | [<- | []]]; cbn [fst snd pose_of]; intros E; try discriminate; injection E as <-;
    unfold sc_target; rewrite trans_inv, !trans_mul; (split; [ | reflexivity ]); f_equal; unfold vadd, vsub, vzero; cbn [vx vy vz]; f_equal; lra.
Qed.
Lemma pg_pictures cam p : In cam pg_rig -> In p (pics cam) -> fst p = None \/ exists d, fst p = Some (iso_trans d).
Proof.
  intros [<- | [<- | [<- | []]]] Hp; cbn [pics] in Hp; destruct Hp as [<- | [<- | []]]; cbn [fst]; first [ left; reflexivity | right; eexists; reflexivity ].
Qed.
Lemma pg_exact cam sel e : In cam pg_rig -> chosen (sees_shown sc_vision) (pics cam) sel -> In e (camera_errors (intr_of cam) (pose_of cam) sc_target (at_poses sel)) ->
  e = [0; 0].
Proof.
  intros Hc Ch He. unfold camera_errors in He. apply in_flat_map in He. destruct He as (x & Hx & He). unfold at_poses in Hx. apply in_map_iff in Hx.
  destruct Hx as ([p cs] & <- & Hs). cbn [fst snd] in He. apply in_map_iff in He. destruct He as (c & <- & Hcs).
  destruct (chosen_in _ _ _ Ch p cs Hs) as [Hp Sp].
  destruct (pg_pictures cam p Hc Hp) as [E | [d E]].
  - destruct p as [img T]. cbn [fst] in E. subst img. destruct (sc_none _ _ Sp).
  - destruct (pg_seen cam p d Hc Hp E) as [Es Hz]. rewrite Es. destruct p as [img T]. cbn [fst] in E. subst img.
    pose proof (shown_unique sc_vision _ _ _ Sp (sc_shown d T)) as ->.
    unfold sc_seen in Hcs. apply in_map_iff in Hcs. destruct Hcs as (q & <- & Hq). unfold seen_error. cbn [in_target in_image]. rewrite sc_pose.
    assert (Ei : intr_of cam = sc_intr) by (destruct Hc as [<- | [<- | [<- | []]]]; reflexivity). rewrite Ei.
    rewrite arr_pinhole.
    + f_equal; [ ring | f_equal; ring ].
    + assert (Zq : vz q = 0) by (cbn in Hq; intuition (subst; reflexivity)). destruct d as [a b z], q as [x y w]. cbn [vz] in Hz, Zq. subst z w.
      unfold iso_app, iso_trans. cbn [lin tr]. geo_unfold. unfold I3. cbn. lra.
Qed.

(** A run that stays and reports no cost. *)
Lemma pg_estimate p e : plain_pose (mp_base_to_target_guess p) -> ordinary_pose (mp_base_to_target_guess p) -> optimizeMpnp pg_run p = Ok e ->
  ordinary_estimate e /\ mr_base_to_target e = mp_base_to_target_guess p.
Proof.
  intros Pp Po E. pose proof (mpnp_unmoved p pg_run e pg_run_still Pp E) as Eb. split; [ | exact Eb ]. unfold ordinary_estimate. rewrite Eb.
  unfold optimizeMpnp in E. destruct (mpnp_blocks p) as [b| |]; cbn [bind pg_run] in E; try discriminate. injection E as <-.
  cbn [mr_initial_cost_per_obs mr_final_cost_per_obs initial_cost final_cost]. unfold Rdiv. rewrite Rmult_0_l.
  split; [ exact zero_ordinary | split; [ exact zero_ordinary | exact Po ] ].
Qed.
Lemma pg_cameras_ordinary : ordinary_cameras (map pose_of pg_rig).
Proof.
  intros C D HC HD. cbn [map pg_rig pose_of] in HC, HD. split.
  - destruct HC as [<- | [<- | [<- | []]]]; apply trans_ordinary; lra.
  - destruct HC as [<- | [<- | [<- | []]]]; destruct HD as [<- | [<- | [<- | []]]]; rewrite trans_inv, trans_mul; unfold vadd, vsub, vzero; cbn [vx vy vz]; apply trans_ordinary; lra.
Qed.
(** The tool for static cameras on this rig, started at the true poses. *)
Lemma pg_static u umask : exists r printed shown,
  multiStaticTool sc_vision sc_draw sc_display umask (fun _ => pg_run) u sc_still ex_cov_oracle sc_target (map input pg_rig) = Ok (r, printed, shown) /\
  sr_base_to_camera r = map pose_of pg_rig /\ sr_wrist_to_target r = sc_target /\
  ordinary_cost (sr_initial_cost_per_obs r) /\ ordinary_cost (sr_final_cost_per_obs r) /\ ordinary_pose (sr_wrist_to_target r) /\
  ordinary_cameras (sr_base_to_camera r) /\ (forall y, In y shown -> ordinary_reprojection (snd y)).
Proof.
  destruct pg_rig_fits as (A & B & C & D & Pc & Pp & U).
  assert (Hd : forall (img : option iso) (ps : list vec2), exists img', sc_draw img ps = Ok img') by (intros; eexists; reflexivity).
  assert (Hs : forall img, sc_display img = Ok tt) by reflexivity.
  destruct (static_tool_returns sc_vision sc_draw sc_display umask (fun _ => pg_run) Hd Hs pg_rig 2 A B C u sc_still ex_cov_oracle sc_target U) as [[[r printed] shown] T];
    [ reflexivity | reflexivity | apply ex_oracle_sym | ].
  exists r, printed, shown. split; [ exact T | ].
  destruct (static_calibrates sc_vision sc_draw sc_display umask (fun _ => pg_run) pg_rig 2 A B C u sc_still ex_cov_oracle sc_target r printed shown Pp T)
    as (sels & bl & m0 & m & s & Ch & Hb & Es & M0 & Mc & _ & Ew & Ec & Ei & Ef).
  unfold sc_still in Es. injection Es as <- <-. cbn [initial_cost final_cost] in Ei, Ef.
  assert (Tp : plain_pose sc_target) by apply plain_id_tr.
  assert (E1 : sr_wrist_to_target r = sc_target) by (rewrite Ew, M0; apply plain_stored, Tp).
  assert (E2 : sr_base_to_camera r = map pose_of pg_rig).
  { rewrite Ec. cbn [List.length pg_rig seq map].
    rewrite (Mc 0%nat _ eq_refl), (Mc 1%nat _ eq_refl), (Mc 2%nat _ eq_refl). cbn [pose_of]. rewrite !plain_stored by (apply plain_inv, plain_id_tr). rewrite !iso_inv_inv by apply rigid_trans. reflexivity. }
  assert (Z : half_squares (flat_map (fun b => rb_eval b m0) bl) = 0).
  { apply half_squares_all_zero. intros x Hx. rewrite flat_map_concat_map in Hx. rewrite Hb in Hx.
    2: { intros c Hc. apply rigid_uninv. assert (Hin : In (iso_inv (poseCalToEigen (read_pose m0 c))) (sr_base_to_camera r)) by (rewrite Ec; apply in_map_iff; exists c; split; [ reflexivity | apply in_seq; lia ]).
         rewrite E2 in Hin. apply in_map_iff in Hin. destruct Hin as (cam & <- & Hcam). exact (proj1 (Pc cam Hcam)). }
    rewrite <- Ew, <- Ec, E1, E2 in Hx.
    inversion Ch as [|a0 s0 l0 r0 C0 F0]; subst. inversion F0 as [|a1 s1 l1 r1 C1 F1]; subst. inversion F1 as [|a2 s2 l2 r2 C2 F2]; subst. inversion F2; subst.
    cbn [map combine pg_rig flat_map fst snd] in Hx. rewrite app_nil_r in Hx. apply in_concat in Hx. destruct Hx as (e & He & Hx).
    assert (e = [0; 0]).
    { rewrite !in_app_iff in He. destruct He as [He | [He | He]]; [ eapply (pg_exact _ s0 e); [ left; reflexivity | exact C0 | exact He ]
      | eapply (pg_exact _ s1 e); [ right; left; reflexivity | exact C1 | exact He ] | eapply (pg_exact _ s2 e); [ right; right; left; reflexivity | exact C2 | exact He ] ]. }
    subst e. destruct Hx as [<- | [<- | []]]; reflexivity. }
  rewrite Z in Ei, Ef. unfold Rdiv in Ei, Ef. rewrite Rmult_0_l in Ei, Ef. rewrite Ei, Ef, E1, E2.
  split; [ reflexivity | split; [ reflexivity | split; [ exact zero_ordinary | split; [ exact zero_ordinary | split; [ apply trans_ordinary; lra | split; [ exact pg_cameras_ordinary | ] ] ] ] ] ].
  intros y Hy.
  destruct (static_shows sc_vision sc_draw sc_display umask (fun _ => pg_run) pg_rig 2 A B C u sc_still ex_cov_oracle sc_target r printed shown T) as (images & Im & Sh).
  assert (X : exists x T (s : camera (option iso) * iso * list (correspondence vec2)) rest (p : option iso * iso), In x images /\ first_pose pg_rig (fst x) T /\ snd x = s :: rest /\
    reprojected pg_run (iso_mul T (sr_wrist_to_target r)) (fst p) (views_of (snd x)) (snd y)).
  { clear -Sh Hy. induction Sh as [|x y' l l' (Ex & P & s & rest & p & F & Es & _ & Rp) Sh IH]; [ destruct Hy | ]. destruct Hy as [-> | Hy].
    - exists x, P, s, rest, p. split; [ left; reflexivity | split; [ exact F | split; [ exact Es | exact Rp ] ] ].
    - destruct (IH Hy) as (x' & P' & s' & rest' & p' & H1 & H2 & H3 & H4). exists x', P', s', rest', p'. split; [ right; exact H1 | auto ]. }
  destruct X as (x & P & s & rest & p & Hx & FP & Es & Rp). rewrite E1 in Rp.
  assert (Pd : exists a, P = iso_trans (V3 a 0 0) /\ 0 <= a <= 1).
  { destruct FP as (c & q & E0 & Eq & <-). cbn in E0. injection E0 as <-. cbn [pics] in Eq. destruct (fst x) as [|[|i]]; cbn in Eq; [ | | destruct i; discriminate ]; injection Eq as <-; cbn [snd];
    [ exists 0 | exists (1/2) ]; (split; [ reflexivity | lra ]). }
  destruct Pd as (a & -> & Ha).
  assert (Et : iso_mul (iso_trans (V3 a 0 0)) sc_target = iso_trans (V3 a 0 1)) by (unfold sc_target; rewrite trans_mul; f_equal; unfold vadd; cbn [vx vy vz]; f_equal; ring).
  rewrite Et in Rp. destruct Rp as (k & C1 & cs & o & Ecs & _ & EX & _ & Em & EY & _).
  apply pg_estimate in Em; [ | apply plain_id_tr | apply trans_ordinary; lra ]. destruct Em as [O1 Eb]. cbn [mp_base_to_target_guess] in Eb.
  unfold ordinary_reprojection. rewrite EX, EY, Eb.
  assert (HC : In C1 (map pose_of pg_rig)).
  { rewrite Es in Ecs. unfold views_of in Ecs. cbn [map] in Ecs. injection Ecs as _ <- _ _.
    destruct x as [i seen]. cbn [snd] in Es. subst seen. destruct (chosen_in _ _ _ Im _ _ Hx) as [_ [_ Se]]. unfold seeing in Se.
    destruct (chosen_in _ _ _ Se (fst s) (snd s)) as [Hc _]; [ left; destruct s; reflexivity | ]. rewrite E2 in Hc. destruct (fst s) as [cam Cx]. exact (in_combine_r _ _ _ _ Hc). }
  assert (O : ordinary_pose (iso_mul (iso_inv C1) (iso_trans (V3 a 0 1)))).
  { cbn [map pg_rig pose_of] in HC. destruct HC as [<- | [<- | [<- | []]]]; rewrite trans_inv, trans_mul; unfold vadd, vsub, vzero; cbn [vx vy vz]; apply trans_ordinary; lra. }
  auto.
Qed.

Lemma seeing_at_unique i (cam : camera (option iso)) a b : sees_at sc_vision i cam a -> sees_at sc_vision i cam b -> a = b.
Proof. intros (p & E & H) (q & E' & H'). rewrite E in E'. injection E' as <-. exact (shown_unique sc_vision _ _ _ H H'). Qed.
(** What the text calls CAMERA 0 TO TARGET in the first picture is the target in camera 1. *)
Lemma pg_static_label : exists u umask runs solve cov W0 (rig : list (camera (option iso))) r printed shown,
  orderly sc_vision /\ rig <> [] /\ even rig 2 /\ (forall cam p, In cam rig -> In p (pics cam) -> plain_pose (snd p)) /\
  multiStaticTool sc_vision sc_draw sc_display umask runs u solve cov W0 (map input rig) = Ok (r, printed, shown) /\ honest_blocks solve /\
  exists before after e X Y C0 rest T, page_of (multiText r printed shown) (before ++ static_image_blocks 0 e X Y ++ after) /\
    sr_base_to_camera r = C0 :: rest /\ first_pose rig 0 T /\
    norm (vsub (tr X) (tr (iso_mul (iso_inv C0) (iso_mul T (sr_wrist_to_target r))))) = 1.
Proof.
  destruct pg_rig_fits as (A & B & C & _ & _ & Pp & _).
  destruct (pg_static (fun _ _ => 0) (fun _ _ => 0%nat)) as (r & printed & shown & T & E2 & E1 & O1 & O2 & O3 & O4 & O5).
  exists (fun _ _ => 0), (fun _ _ => 0%nat), (fun _ => pg_run), sc_still, ex_cov_oracle, sc_target, pg_rig, r, printed, shown.
  split; [ exact A | split; [ exact B | split; [ exact C | split; [ exact Pp | split; [ exact T | split; [ exact sc_still_honest | ] ] ] ] ] ].
  destruct (static_page sc_vision sc_draw sc_display (fun _ _ => 0%nat) (fun _ => pg_run) pg_rig 2 A B C _ _ _ _ _ _ _ Pp T sc_still_honest O1 O2 O3 O4 O5)
    as (sels & images & pages & C0 & rest & _ & Im & E0 & Pg & Fp & _).
  set (cam1 := nth 1 pg_rig (Camera [] sc_intr iso_id)). set (cam2 := nth 2 pg_rig (Camera [] sc_intr iso_id)).
  assert (Se : seeing sc_vision pg_rig (sr_base_to_camera r) 0
    [((cam1, iso_trans (V3 1 0 0)), sc_seen (iso_trans (V3 1 0 0))); ((cam2, iso_trans (V3 0 1 0)), sc_seen (iso_trans (V3 0 1 0)))]).
  { rewrite E2. unfold seeing. cbn [map pg_rig combine pose_of]. constructor 3.
    - intros b (p & E & H). cbn in E. injection E as <-. exact (sc_none _ _ H).
    - constructor; [ eexists; split; [ reflexivity | apply sc_shown ] | ]. constructor; [ eexists; split; [ reflexivity | apply sc_shown ] | constructor ]. }
  inversion Im as [ | i b l r' [_ Hb] Im' | i l r' No Im' ]; subst; [ | exfalso; refine (No _ (conj _ Se)); exact (le_n 2) ].
  pose proof (chosen_unique (fun x => sees_at sc_vision 0 (fst x)) _ _ (fun x a b H H' => seeing_at_unique 0 (fst x) a b H H') Se _ Hb) as ->.
  inversion Fp as [ | x page l1 l2 (P & s & others & e & FP & Es & Em & Epage) Fp' ]; subst. cbn [fst snd] in *. injection Es as <- <-. cbn [fst snd] in *.
  exists ([results_block (sr_converged r) (sr_initial_cost_per_obs r) (sr_final_cost_per_obs r); blank_line;
          transform_block "WRIST TO TARGET" "Wrist" "Target" (sr_wrist_to_target r); blank_line] ++
         flat_map (static_camera_blocks C0) (with_number (sr_base_to_camera r)) ++ [title_block "REPROJECTION ERROR"])%list, (concat l2), e,
    (iso_mul (iso_inv (iso_trans (V3 1 0 0))) (iso_mul P (sr_wrist_to_target r))), (iso_mul (iso_inv (iso_trans (V3 1 0 0))) (mr_base_to_target e)), C0, rest, P.
  split; [ rewrite <- !app_assoc; exact Pg | ]. split; [ exact E0 | ]. split; [ exact FP | ].
  rewrite E2 in E0. cbn [map pg_rig pose_of] in E0. injection E0 as <- _. rewrite E1.
  destruct FP as (c & q & Q0 & Q1 & <-). cbn in Q0. injection Q0 as <-. cbn in Q1. injection Q1 as <-. cbn [snd]. unfold sc_target.
  rewrite !trans_inv, !trans_mul. cbn [tr iso_trans]. unfold norm, dot, vadd, vsub, vzero. cbn [vx vy vz].
  replace (_ + _) with 1 by ring. exact sqrt_1.
Qed.

(** ** The image that all cameras see *)
Definition pg_kept : list (nat * (iso * list (list (correspondence vec2)))) :=
  [(1%nat, (iso_trans (V3 (1/2) 0 0), [sc_seen (iso_trans (V3 (- (1/2)) 0 0)); sc_seen (iso_trans (V3 (1/2) 0 0)); sc_seen (iso_trans (V3 (- (1/2)) 1 0))]))].
Lemma pg_common : chosen (common sc_vision pg_rig) (seq 0 2) pg_kept.
Proof.
  cbn [seq]. constructor 3.
  - intros [T css] [_ S]. cbn [snd] in S. inversion S as [ | a b l r (p & Ep & Sp) F ]; subst. cbn in Ep. injection Ep as <-. exact (sc_none _ _ Sp).
  - constructor; [ | constructor ]. split; [ eexists; eexists; repeat split; reflexivity | ].
    constructor; [ | constructor; [ | constructor; [ | constructor ] ] ]; (eexists; split; [ reflexivity | apply sc_shown ]).
Qed.
Lemma pg_kept_only kept : chosen (common sc_vision pg_rig) (seq 0 2) kept -> kept = pg_kept.
Proof.
  refine (chosen_unique _ _ _ _ pg_common _). intros i [T1 c1] [T2 c2] [F1 S1] [F2 S2]. cbn [fst snd] in *.
  destruct F1 as (a1 & p1 & E1 & E1' & <-), F2 as (a2 & p2 & E2 & E2' & <-). rewrite E1 in E2. injection E2 as <-. rewrite E1' in E2'. injection E2' as <-. f_equal.
  clear -S1 S2. revert c2 S2. unfold all_see in *. induction S1 as [ | x y l r H S1 IH]; intros c2 S2; inversion S2 as [ | x' y' l' r' H' S2']; subst; [ reflexivity | ].
  f_equal; [ exact (seeing_at_unique _ _ _ _ H H') | apply IH, S2' ].
Qed.
Lemma zero_over n : 0 / n = 0.
Proof. unfold Rdiv. apply Rmult_0_l. Qed.
Lemma pg_only_costs p o : optimizeOnly pg_run p = Ok o -> or_initial_cost_per_obs o = 0 /\ or_final_cost_per_obs o = 0.
Proof. unfold optimizeOnly. destruct (only_blocks p) as [b| |]; cbn [bind pg_run]; try discriminate. intros [= <-]. split; apply zero_over. Qed.
Lemma pg_wrist_costs p w : optimizeWrist pg_run p = Ok w -> wr_initial_cost_per_obs w = 0 /\ wr_final_cost_per_obs w = 0.
Proof. unfold optimizeWrist. destruct (wrist_blocks p) as [b| |]; cbn [bind pg_run]; try discriminate. intros [= <-]. split; apply zero_over. Qed.
(** The multi-step tool on this rig. *)
Lemma pg_step umask fix_first : exists o printed w printed' shown,
  stepTool sc_vision sc_draw sc_display umask (fun _ => pg_run) pg_run pg_run fix_first sc_target (map input pg_rig) = Ok (o, printed, w, printed', shown) /\
  ordinary_cost (or_initial_cost_per_obs o) /\ ordinary_cost (or_final_cost_per_obs o) /\ ordinary_cameras (or_base_to_camera o) /\
  ordinary_cost (wr_initial_cost_per_obs w) /\ ordinary_cost (wr_final_cost_per_obs w) /\ ordinary_cameras (wr_base_to_camera w) /\
  ordinary_pose (wr_wrist_to_target w) /\ (forall y, In y shown -> ordinary_reprojection y).
Proof.
  destruct pg_rig_fits as (A & B & C & D & Pc & Pp & U).
  assert (Hd : forall (img : option iso) (ps : list vec2), exists img', sc_draw img ps = Ok img') by (intros; eexists; reflexivity).
  assert (Hs : forall img, sc_display img = Ok tt) by reflexivity.
  destruct (step_tool_returns sc_vision sc_draw sc_display umask (fun _ => pg_run) Hd Hs pg_rig 2 A B C D pg_run pg_run fix_first sc_target) as [[[[[o printed] w] printed'] shown] T].
  exists o, printed, w, printed', shown. split; [ exact T | ].
  destruct (step_stages sc_vision sc_draw sc_display umask (fun _ => pg_run) pg_rig 2 A B C D pg_run pg_run fix_first sc_target o printed w printed' shown T) as (kept & Ch & Eo & _ & Ew & _).
  pose proof (pg_kept_only _ Ch) as ->.
  destruct (only_unmoved _ pg_run o (only_of_sizes pg_rig fix_first sc_target pg_kept) pg_run_still) as [Ec _]; [ discriminate | | | exact Eo | ].
  { intros x Hx. cbn [only_of op_base_to_camera_guess] in Hx. apply in_map_iff in Hx. destruct Hx as (cam & <- & Hc). exact (Pc cam Hc). }
  { intros x [<- | []]. cbn [fst snd]. unfold sc_target. rewrite trans_mul. apply plain_id_tr. }
  cbn [only_of op_base_to_camera_guess] in Ec.
  destruct (wrist_unmoved (wrist_of pg_rig sc_target pg_kept (or_base_to_camera o)) pg_run w pg_run_still (plain_id_tr (V3 0 0 1)) Ew) as [Ed Et]. cbn [wrist_of wp_base_to_camera_guess wp_wrist_to_target_guess] in Ed, Et. rewrite Ec in Ed.
  destruct (pg_only_costs _ _ Eo) as [-> ->], (pg_wrist_costs _ _ Ew) as [-> ->]. rewrite Ec, Ed, Et.
  do 2 (split; [ exact zero_ordinary | ]). split; [ exact pg_cameras_ordinary | ]. do 2 (split; [ exact zero_ordinary | ]). split; [ exact pg_cameras_ordinary | ].
  split; [ apply trans_ordinary; lra | ].
  destruct (step_shows sc_vision sc_draw sc_display umask (fun _ => pg_run) pg_rig 2 A B C D pg_run pg_run fix_first sc_target o printed w printed' shown T) as (kept & Ch' & F).
  pose proof (pg_kept_only _ Ch') as ->. rewrite Ed, Et in F. cbn [pg_kept List.length seq combine] in F.
  inversion F as [ | x r l rs (img & _ & Rp) F' ]; subst. inversion F'; subst. intros y [<- | []]. cbn [fst snd] in Rp. unfold sc_target in Rp. rewrite trans_mul in Rp. unfold vadd in Rp. cbn [vx vy vz] in Rp.
  destruct Rp as (k & C1 & cs & rest & Ecs & _ & EX & _ & Em & EY & _).
  apply pg_estimate in Em; [ | apply plain_id_tr | apply trans_ordinary; lra ]. destruct Em as [O1 Eb]. cbn [mp_base_to_target_guess] in Eb.
  cbn [pg_rig map combine] in Ecs. injection Ecs as _ <- _ _. unfold ordinary_reprojection. rewrite EX, EY, Eb. cbn [pose_of].
  assert (O : ordinary_pose (iso_mul (iso_inv (iso_trans vzero)) (iso_trans (V3 (1 / 2 + 0) (0 + 0) (0 + 1))))).
  { rewrite trans_inv, trans_mul. unfold vadd, vsub, vzero. cbn [vx vy vz]. apply trans_ordinary; lra. }
  auto.
Qed.
(** Its text calls image number 1 REPROJECT IMAGE 0. *)
Lemma pg_step_title : exists umask runs solve solve_wrist W (rig : list (camera (option iso))) o printed w printed' shown i T css,
  orderly sc_vision /\ rig <> [] /\ even rig 2 /\ (Z.of_nat (List.length rig) < 2 ^ 32)%Z /\
  stepTool sc_vision sc_draw sc_display umask runs solve solve_wrist true W (map input rig) = Ok (o, printed, w, printed', shown) /\
  chosen (common sc_vision rig) (seq 0 2) [(i, (T, css))] /\ i <> 0%nat /\
  exists before e D0 rest, wr_base_to_camera w = D0 :: rest /\
    optimizeMpnp (runs 0%nat) (MP (map intr_of rig) (wr_base_to_camera w) css (iso_mul T (wr_wrist_to_target w))) = Ok e /\
    page_of (stepText o printed w printed' shown)
      (before ++ step_image_blocks 0 e (iso_mul (iso_inv D0) (iso_mul T (wr_wrist_to_target w))) (iso_mul (iso_inv D0) (mr_base_to_target e))).
Proof.
  destruct pg_rig_fits as (A & B & C & D & _).
  destruct (pg_step (fun _ _ => 0%nat) true) as (o & printed & w & printed' & shown & T & O1 & O2 & O3 & O4 & O5 & O6 & O7 & O8).
  destruct (step_page sc_vision sc_draw sc_display (fun _ _ => 0%nat) (fun _ => pg_run) pg_rig 2 A B C _ _ _ _ _ _ _ _ _ D T O1 O2 O3 O4 O5 O6 O7 O8)
    as (kept & pages & C0 & Cs & D0 & Ds & Ch & E0 & E0' & Pg & Fp).
  pose proof (pg_kept_only _ Ch) as ->. unfold with_number in Fp. cbn [pg_kept List.length seq combine] in Fp.
  inversion Fp as [ | x page l1 l2 H Fp' ]; subst. destruct H as (e & Em & ->). inversion Fp'; subst. cbn [concat] in Pg. rewrite app_nil_r in Pg.
  do 11 eexists. exists 1%nat. eexists. eexists.
  split; [ exact A | split; [ exact B | split; [ exact C | split; [ exact D | split; [ exact T | split; [ exact Ch | split; [ discriminate | ] ] ] ] ] ] ].
  eexists. exists e, D0, Ds. split; [ exact E0' | split; [ exact Em | ] ]. 
  match type of Pg with page_of ?t ?l => match l with context [?a ++ ?b ++ ?c ++ ?d ++ [?x] ++ ?e] => apply (eq_ind _ (page_of t) Pg ((a ++ b ++ c ++ d ++ [x]) ++ e)); rewrite <- !app_assoc; reflexivity end end.
Qed.
(** The PnP tool on this rig. *)
Lemma pg_pnp umask : exists shown,
  multiPnpTool sc_vision sc_draw sc_display umask (fun _ => pg_run) (map input pg_rig) = Ok shown /\ shown <> [] /\
  (forall cam p, In cam pg_rig -> In p (pics cam) -> ordinary_pose (snd p)) /\ (forall y, In y shown -> ordinary_estimate (rj_pnp (snd y))).
Proof.
  destruct pg_rig_fits as (A & B & C & D & _).
  assert (Hd : forall (img : option iso) (ps : list vec2), exists img', sc_draw img ps = Ok img') by (intros; eexists; reflexivity).
  assert (Hs : forall img, sc_display img = Ok tt) by reflexivity.
  destruct (pnp_tool_returns sc_vision sc_draw sc_display umask (fun _ => pg_run) Hd Hs pg_rig 2 A B C D) as [shown T].
  destruct (pnp_shows sc_vision sc_draw sc_display umask (fun _ => pg_run) pg_rig 2 A B C D shown T) as (kept & Ch & F). pose proof (pg_kept_only _ Ch) as ->.
  inversion F as [ | x r l rs (_ & img & _ & Rp) F' ]; subst. inversion F'; subst. exists [r]. split; [ exact T | split; [ discriminate | split ] ].
  - intros c p [<- | [<- | [<- | []]]] Hp; cbn [pics] in Hp; destruct Hp as [<- | [<- | []]]; apply trans_ordinary; lra.
  - intros y [<- | []]. cbn [fst snd] in Rp. destruct Rp as (k & C1 & cs & rest & Ecs & _ & EX & _ & Em & EY & _).
    apply pg_estimate in Em; [ exact (proj1 Em) | apply plain_id_tr | apply trans_ordinary; lra ].
Qed.
