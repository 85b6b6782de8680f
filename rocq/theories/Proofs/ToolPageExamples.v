(** Runs of the tools for one camera whose texts are ordinary, for C113. *)
From Coq Require Import Reals ZArith Arith Lia Lra String List Permutation.
From Verif.Base Require Import Geom Outcome.
From Verif.Model Require Import Pose Covariance Solver HandEye Pnp BlockSolver Intrinsic Homography Projection IntrinsicValidation DataSet ExampleTools CvTools CovReport ParamText Print PrintText ToolText.
From Verif.Spec Require Import Frames PinHole CovarianceSpec ProjectionSpec HomographySpec ValidationSpec PnpSpec IntrinsicSpec UniqueSpec ToolSpec PrintTextSpec ToolTextSpec.
From Verif.Proofs Require Import GeomLemmas ListLemmas PoseProofs HandEyeProofs PnpProofs IntrinsicProofs IntrinsicValidationProofs ProjectionProofs HomographyProofs ToolProofs AnalysisProofs HandEyeToolProofs SceneProofs CvToolProofs ScenesProofs
  ToolPageProofs PageExamples UniqueLemmas UniqueExamples IntrinsicUnique IntrinsicUniqueExample.
Import ListNotations.
Local Open Scope R_scope.

Lemma zero_number : ordinary_number 0.
Proof. unfold ordinary_number. rewrite Rabs_R0. apply pow_le. lra. Qed.
(** *** Hand-eye calibrations that start from the true poses *)
Section Perfect.
  Variables (mount : list (correspondence vec2) -> iso -> observation vec2) (from : iso -> iso -> iso -> iso).
  Variables (data : list (option iso * iso)) (sel : list ((option iso * iso) * list (correspondence vec2))).
  Hypothesis Hset : forall cs T, correspondence_set (mount cs T) = cs.
  Hypothesis Hplain : forall cs T, plain_pose T -> plain_pose (to_camera_mount (mount cs T)) /\ plain_pose (to_target_mount (mount cs T)).
  Hypothesis Hfrom : forall cs M C T, target_in_camera C (to_camera_mount (mount cs M)) (to_target_mount (mount cs M)) T = from M C T.
  Hypothesis Hdata : forall p, In p data -> plain_pose (snd p).
  Hypothesis Hsel : chosen (ToolSpec.usable sc_vision (gauss 8) sc_seed sc_uniform 0) data sel.
  Hypothesis Hnone : sel <> [].
  Hypothesis Hfull : forall s, In s sel -> snd s <> [].
  Hypothesis Hmany : (2 <= List.length (all_pairs (map (fun s => mount (snd s) (snd (fst s))) sel)))%nat.
  Hypothesis Hperfect : forall M c, In (M, c) (seen_pairs sel) ->
    let pose := from M iso_id sc_target in vz (in_target c) = 0 /\ 0 < vz (iso_app pose (in_target c)) /\
    crosses_plane pose (iso_app pose (in_target c)) /\ in_image c = pinhole sc_intr (iso_app pose (in_target c)).
  Lemma pg_hand_eye u : exists rep, handEyeTool mount sc_vision (gauss 8) sc_seed sc_uniform (fun img _ => Ok img) (fun _ => Ok tt)
    u sc_stay ex_cov_oracle (fun _ => ex_run) 0 sc_intr sc_target iso_id (Some (data_of data)) = Ok rep /\ ordinary_report rep.
  Proof.
    assert (X : exists rep, handEyeTool mount sc_vision (gauss 8) sc_seed sc_uniform (fun img _ => Ok img) (fun _ => Ok tt)
      u sc_stay ex_cov_oracle (fun _ => ex_run) 0 sc_intr sc_target iso_id (Some (data_of data)) = Ok rep /\
      rep_errors rep = ErrorStats 0 (Some 0) 0 0 /\ rep_differences rep = Diff 0 0 0 0 /\
      he_camera_mount_to_camera (rep_result rep) = iso_id /\ he_target_mount_to_target (rep_result rep) = sc_target).
    { unfold handEyeTool.
      assert (Hh : forall p, In p data -> harmless sc_vision (fst p)) by (intros p _; split; [ exact I | split; [ reflexivity | ] ]; intros f _; split; exact I).
      destruct (collects sc_vision (gauss 8) sc_seed sc_uniform mount 0 data sc_bounds Hh) as (obs & imgs & E). rewrite E. cbn [bind].
      pose proof (collected _ _ _ _ _ _ _ _ _ E) as (sel' & Ch & -> & ->).
      assert (sel' = sel).
      { refine (chosen_unique _ _ _ _ Hsel _ Ch). intros a b b' [H _] [H' _]. exact (sees_unique _ _ _ _ H H'). }
      subst sel'. set (problem := HEP2 _ _ _ _ _).
      assert (Mo : forall o, In o (h2_observations problem) -> exists s, In s sel /\ o = mount (snd s) (snd (fst s)) /\ plain_pose (snd (fst s))).
      { intros o Ho. unfold problem in Ho. cbn [h2_observations] in Ho. apply in_map_iff in Ho. destruct Ho as (s & <- & Hs). exists s. split; [ exact Hs | split; [ reflexivity | ] ].
        apply Hdata. destruct s as [p cs]. exact (proj1 (chosen_in _ _ _ Ch p cs Hs)). }
      clear Ch.
      assert (Ob : forall o, In o (h2_observations problem) -> plain_pose (to_camera_mount o) /\ plain_pose (to_target_mount o) /\ correspondence_set o <> []).
      { intros o Ho. destruct (Mo o Ho) as (s & Hs & -> & Ps). destruct (Hplain (snd s) _ Ps) as [P1 P2]. rewrite Hset. auto. }
      assert (Pr : forall o c, In o (h2_observations problem) -> In c (correspondence_set o) ->
        let pose := target_in_camera iso_id (to_camera_mount o) (to_target_mount o) sc_target in vz (in_target c) = 0 /\ 0 < vz (iso_app pose (in_target c)) /\
        crosses_plane pose (iso_app pose (in_target c)) /\ in_image c = pinhole sc_intr (iso_app pose (in_target c))).
      { intros o c Ho Hc. destruct (Mo o Ho) as (s & Hs & -> & Ps). rewrite Hset in Hc. cbv zeta. rewrite Hfrom. apply Hperfect.
        unfold seen_pairs. apply in_flat_map. exists s. split; [ exact Hs | ]. apply in_map. exact Hc. }
      destruct (accept2 u sc_stay ex_cov_oracle problem) as [r Hr]; try reflexivity.
      { apply ex_oracle_lists. } { apply ex_oracle_sym. } { exact plain_id. } { apply plain_id_tr. }
      { intros o Ho. destruct (Ob o Ho) as (A & B & _). split; assumption. }
      { intros Q. change (all_pairs (map (fun s => mount (snd s) (snd (fst s))) sel) = []) in Q. rewrite Q in Hmany. cbn in Hmany. lia. }
      { intros o c Ho Hc. exact (proj1 (proj2 (Pr o c Ho Hc))). }
      rewrite Hr. cbn [bind].
      destruct (unmoved2 _ sc_stay _ _ _ (fun b x => eq_refl) Hr plain_id (plain_id_tr (V3 0 0 1))) as [Ec Et]. cbn [problem h2_camera_guess h2_target_guess] in Ec, Et.
      assert (An : analyze3DProjectionError problem r = Ok (ErrorStats 0 (Some 0) 0 0)).
      { unfold analyze3DProjectionError. rewrite Ec, Et. rewrite error_set_perfect.
        - cbn [bind]. apply error_stats_zero. exact Hmany.
        - cbn. lra.
        - cbn. lra.
        - apply rigid_id.
        - apply rigid_trans.
        - intros o Ho. destruct (Ob o Ho) as (A & B & _). split; [ exact (proj1 A) | split; [ exact (proj1 B) | ] ].
          intros c Hc. destruct (Pr o c Ho Hc) as (P1 & P2 & P3 & P4). split; [ exact P1 | split; [ lra | split; assumption ] ]. }
      rewrite An. cbn [bind].
      destruct (analyze_succeeds (fun (img : option iso) _ => Ok img) (fun _ => Ok tt) (fun _ => ex_run) problem r (map (fun s => fst (fst s)) sel)) as [d Hd].
      { intros Q. apply map_eq_nil in Q. contradiction. } { unfold problem. cbn [h2_observations]. rewrite !map_length. apply le_n. }
      { rewrite Ec. apply rigid_id. } { intros o Ho. exact (proj1 (proj1 (Ob o Ho))). }
      { intros img pts. exists img. reflexivity. } { reflexivity. }
      { intros i o Ho _. apply sc_fits. exact (proj2 (proj2 (Ob o (nth_error_In _ _ Ho)))). }
      rewrite Hd. cbn [bind]. eexists. split; [ reflexivity | ]. cbn [rep_errors rep_differences rep_result]. split; [ reflexivity | ]. split; [ | split; assumption ].
      assert (Rc : rigid (he_camera_mount_to_camera r)) by (rewrite Ec; apply rigid_id). assert (Rt : rigid (he_target_mount_to_target r)) by (rewrite Et; apply rigid_trans).
      assert (Ro : forall o, In o (h2_observations problem) -> rigid (to_camera_mount o) /\ rigid (to_target_mount o)).
      { intros o Ho. destruct (Ob o Ho) as ((A & _) & (B & _) & _). split; assumption. }
      destruct (analyzed_zero (fun (img : option iso) _ => Ok img) (fun _ => Ok tt) (fun _ => ex_run) problem r Rc Rt Ro _ d Hd) as (Ps & _ & Fit & Z). apply Z.
      intros i o P Ho HP. destruct (Fit i o P Ho HP) as (fit & F & ->).
      assert (St : stays (run_solve ex_run)) by (intros b x; reflexivity). apply (pnp_unmoved2 _ _ _ _ _ St F). cbn [pnp_guess]. unfold predicted, target_in_camera. rewrite Ec, Et.
      destruct (Ro o (nth_error_In _ _ Ho)) as [R1 R2]. apply rigid_mul; [ apply rigid_inv, rigid_mul; [ exact R1 | apply rigid_id ] | apply rigid_mul; [ exact R2 | apply rigid_trans ] ]. }
    destruct X as (rep & E & Ee & Ed & Ec & Et). exists rep. split; [ exact E | ].
    destruct (tool_frames sc_vision (gauss 8) sc_seed sc_uniform (fun img _ => Ok img) (fun _ => Ok tt) u sc_stay ex_cov_oracle (fun _ => ex_run) 0 sc_intr sc_target iso_id data mount from rep Hset Hplain Hfrom E Hdata)
      as (sel' & bl & xf & s & Ch & Hb & Hs & _ & Xt & Xc & Hi & Hf).
    assert (sel' = sel).
    { refine (chosen_unique _ _ _ _ Hsel _ Ch). intros a b b' [H _] [H' _]. exact (sees_unique _ _ _ _ H H'). }
    subst sel'. unfold sc_stay in Hs. injection Hs as <- <-. cbn [initial_cost final_cost fst snd] in *.
    assert (Z : half_squares (flat_map (fun f => f (poseEigenToCal (iso_inv iso_id), poseEigenToCal sc_target)) bl) = 0).
    { apply half_squares_all_zero. intros x Hx. rewrite flat_map_concat_map in Hx. rewrite Hb in Hx; cbn [fst snd] in *.
      - rewrite <- Xc, <- Xt, Ec, Et in Hx. apply in_concat in Hx. destruct Hx as (e & He & Hx). apply in_map_iff in He. destruct He as ([M c] & <- & Hm). cbn [fst snd] in Hx.
        destruct (Hperfect M c Hm) as (_ & F & _ & Im). unfold ToolSpec.pixel_error in Hx. rewrite arr_pinhole in Hx by lra. rewrite <- Im in Hx.
        destruct Hx as [<- | [<- | []]]; ring.
      - apply rigid_uninv. rewrite <- Xc, Ec. apply rigid_id. }
    match type of Hi with _ = ?h / _ => replace h with 0 in Hi, Hf by (symmetry; exact Z) end. rewrite zero_over in Hi, Hf. unfold ordinary_report, ordinary_result. rewrite Hi, Hf, Ec, Et, Ee, Ed.
    split; [ split; [ exact zero_ordinary | split; [ exact zero_ordinary | split; [ apply (trans_ordinary 0 0 0); lra | apply trans_ordinary; lra ] ] ] | ].
    split; repeat (split; try exact zero_number).
  Qed.
End Perfect.
(** A camera on the wrist *)
Lemma pg_wrist u : exists rep, handEyeTool on_wrist sc_vision (gauss 8) sc_seed sc_uniform (fun img _ => Ok img) (fun _ => Ok tt)
    u sc_stay ex_cov_oracle (fun _ => ex_run) 0 sc_intr sc_target iso_id (Some (data_of sc_data)) = Ok rep /\ ordinary_report rep.
Proof.
  apply (pg_hand_eye on_wrist target_from_tool sc_data sc_sel).
  - reflexivity.
  - intros cs T H. split; [ exact H | exact plain_id ].
  - intros. apply from_tool.
  - intros p [<- | [<- | [<- | []]]]; first [ exact plain_id | apply plain_id_tr ].
  - exact sc_chosen.
  - discriminate.
  - intros s [<- | [<- | []]]; discriminate.
  - cbn. lia.
  - exact SceneProofs.sc_perfect.
Qed.
(** A camera that stands still: the pictures show the target where the tool carries it. *)
Definition pg_data : list (option iso * iso) := [(Some (iso_trans vzero), iso_trans vzero); (None, iso_id); (Some (iso_trans (V3 (- (1/2)) 0 0)), iso_trans (V3 (1/2) 0 0))].
Definition pg_sel : list ((option iso * iso) * list (correspondence vec2)) :=
  [((Some (iso_trans vzero), iso_trans vzero), sc_seen (iso_trans vzero)); ((Some (iso_trans (V3 (- (1/2)) 0 0)), iso_trans (V3 (1/2) 0 0)), sc_seen (iso_trans (V3 (- (1/2)) 0 0)))].
Lemma pg_base u : exists rep, handEyeTool on_base sc_vision (gauss 8) sc_seed sc_uniform (fun img _ => Ok img) (fun _ => Ok tt)
    u sc_stay ex_cov_oracle (fun _ => ex_run) 0 sc_intr sc_target iso_id (Some (data_of pg_data)) = Ok rep /\ ordinary_report rep.
Proof.
  apply (pg_hand_eye on_base target_from_base pg_data pg_sel).
  - reflexivity.
  - intros cs T H. split; [ exact plain_id | exact H ].
  - intros. apply from_base.
  - intros p [<- | [<- | [<- | []]]]; first [ exact plain_id | apply plain_id_tr ].
  - assert (Y : forall d T, vz d < 1 -> ToolSpec.usable sc_vision (gauss 8) sc_seed sc_uniform 0 (Some (iso_trans d), T) (sc_seen (iso_trans d))).
    { intros d T Hd. split; [ | apply sc_flat, Hd ]. exists (sc_seen (iso_trans d)). repeat split. }
    unfold pg_data, pg_sel. constructor; [ apply (Y vzero); cbn; lra | ]. constructor 3.
    + intros b [(f & F & N & _) _]. cbn in F. injection F as <-. discriminate.
    + constructor; [ apply Y; cbn; lra | constructor ].
  - discriminate.
  - intros s [<- | [<- | []]]; discriminate.
  - cbn. lia.
  - intros M c. unfold seen_pairs. rewrite in_flat_map. intros (s & Hs & Hc). apply in_map_iff in Hc. destruct Hc as (c' & E & Hc). injection E as <- <-.
    assert (X : exists a, 0 <= a <= 1 /\ target_from_base (snd (fst s)) iso_id sc_target = iso_trans (V3 a 0 1) /\
      forall p, In p (snd s) -> In (in_target p) sc_points /\ in_image p = pinhole sc_intr (iso_app (iso_trans (V3 a 0 1)) (in_target p))).
    { assert (Y : forall d a, vsub (V3 0 0 1) d = V3 a 0 1 -> forall p, In p (sc_seen (iso_trans d)) -> In (in_target p) sc_points /\ in_image p = pinhole sc_intr (iso_app (iso_trans (V3 a 0 1)) (in_target p))).
      { intros d a Hd p Hp. unfold sc_seen in Hp. apply in_map_iff in Hp. destruct Hp as (q & <- & Hq). cbn [in_target in_image]. rewrite SceneProofs.sc_pose, Hd. auto. }
      assert (W : forall a, target_from_base (iso_trans (V3 a 0 0)) iso_id sc_target = iso_trans (V3 a 0 1)).
      { intros a. unfold target_from_base, sc_target. rewrite sc_id, trans_inv, !trans_mul. f_equal. unfold vadd, vsub, vzero. cbn [vx vy vz]. f_equal; ring. }
      destruct Hs as [<- | [<- | []]]; cbn [fst snd]; [ exists 0 | exists (1/2) ]; (split; [ lra | split; [ apply W | apply Y; unfold vsub, vzero; cbn [vx vy vz]; f_equal; lra ] ]). }
    destruct X as (a & Ha & -> & HX). destruct (HX c' Hc) as [Hp Im]. cbv zeta.
    destruct (in_target c') as [x y z] eqn:Ep.
    assert (Q : 0 <= x <= 3 /\ 0 <= y <= 2 /\ z = 0) by (cbn in Hp; repeat destruct Hp as [Hp | Hp]; try contradiction; injection Hp as <- <- <-; lra).
    destruct Q as (Hx & Hy & ->).
    assert (E : iso_app (iso_trans (V3 a 0 1)) (V3 x y 0) = V3 (x + a) y 1).
    { unfold iso_app, iso_trans. cbn [lin tr]. geo_unfold. unfold I3. cbn. f_equal; ring. }
    rewrite E in *. split; [ reflexivity | split; [ cbn; lra | split; [ | exact Im ] ] ]. unfold crosses_plane.
    replace (dot (V3 (x + a) y 1) (col2 (lin (iso_trans (V3 a 0 1))))) with 1 by (unfold iso_trans; cbn [lin]; unfold dot, col2, I3; cbn; ring).
    rewrite Rabs_R1.
    assert (B : norm (V3 (x + a) y 1) <= 5).
    { unfold norm. replace 5 with (sqrt (5 * 5)) by (apply sqrt_square; lra). apply sqrt_le_1_alt. unfold dot. cbn [vx vy vz]. nra. }
    lra.
Qed.

(** *** The pose of a target *)
Definition pg_goes (T : iso) : solver pnp_vars := fun blocks _ => (pnp_start T, Summary true 0 (half_squares (flat_map (fun f => f (pnp_start T)) blocks))).
Lemma pg_goes_honest T : honest (pg_goes T).
Proof. intros blocks x0. reflexivity. Qed.
Lemma pg_solve_pnp u : exists T r,
  solvePnpTool sc_vision (fun _ _ _ => Ok (true, (V3 0 0 0, V3 0 0 1))) u (pg_goes sc_target) ex_cov_oracle sc_intr (Some iso_id) = Ok (T, r) /\
  ordinary_camera sc_intr /\ ordinary_pose T /\ ordinary_cost (pnp_initial_cost_per_obs r) /\ ordinary_cost (pnp_final_cost_per_obs r) /\ ordinary_pose (pnp_camera_to_target r) /\
  (forall cs, sees sc_vision (Some iso_id) cs -> forall c, In c cs -> in_front (iso_app (pnp_camera_to_target r) (in_target c))).
Proof.
  destruct (sc_pnp u (pg_goes sc_target)) as [[T r] E]. exists T, r. split; [ exact E | ].
  destruct (pnp_tool sc_vision _ _ _ _ _ _ _ _ E) as (cs & Se & Cv & Op).
  assert (Ecs : cs = sc_seen iso_id) by (exact (sees_unique _ _ _ _ Se (sc_sees vzero))).
  destruct (pnp_result2 (PnP2 sc_intr cs pnp_tool_guess "camera_to_target")) as (bl & Hb & K). destruct (K _ _ _ _ Op) as (_ & x & s & Hs & _ & Hx & Hi & Hf & _).
  unfold pg_goes in Hs. injection Hs as <- <-. cbn [initial_cost final_cost] in Hi, Hf.
  assert (Ex : pnp_camera_to_target r = sc_target) by (rewrite Hx; apply pnp_start_stored, rigid_trans).
  assert (Fr : forall c, In c cs -> 1 / 10 ^ 10 < vz (iso_app sc_target (in_target c)) /\ in_image c = pinhole sc_intr (iso_app sc_target (in_target c))).
  { intros c Hc. subst cs. unfold sc_seen in Hc. apply in_map_iff in Hc. destruct Hc as (p & <- & Hp). cbn [in_target in_image].
    assert (Zp : vz p = 0) by (cbn in Hp; intuition (subst; reflexivity)). split.
    - destruct p as [a b z]. cbn [vz] in Zp. subst z. unfold iso_app, sc_target, iso_trans. cbn [lin tr]. geo_unfold. unfold I3. cbn.
      assert (1 / 10 ^ 10 < 1) by (apply (Rmult_lt_reg_r (10 ^ 10)); [ lra | field_simplify; lra ]). cbn in H. lra.
    - rewrite (SceneProofs.sc_pose vzero : target_from_tool iso_id iso_id sc_target = _). unfold sc_target. do 3 f_equal. unfold vsub, vzero. cbn [vx vy vz]. f_equal; ring. }
  assert (Z : half_squares (flat_map (fun f => f (pnp_start sc_target)) bl) = 0).
  { apply half_squares_all_zero. intros y Hy. rewrite flat_map_concat_map, Hb in Hy. apply in_concat in Hy. destruct Hy as (e & He & Hy).
    apply in_map_iff in He. destruct He as (c & <- & Hc). cbn [pnp_correspondences] in Hc. rewrite pnp_start_stored in Hy by apply rigid_trans. cbn [pnp_intr] in Hy. destruct (Fr c Hc) as [F I].
    rewrite eig_pinhole in Hy by exact F. rewrite I in Hy. cbv zeta in Hy. destruct Hy as [<- | [<- | []]]; ring. }
  rewrite Z, zero_over in Hf. rewrite zero_over in Hi. rewrite Hi, Hf, Ex.
  split; [ | split; [ | split; [ exact zero_ordinary | split; [ exact zero_ordinary | split; [ apply trans_ordinary; lra | ] ] ] ] ].
  - assert (N1 : ordinary_number 1) by (unfold ordinary_number; rewrite Rabs_R1; apply pow_R1_Rle; lra).
    unfold ordinary_camera. cbn [sc_intr fx fy cx cy]. do 4 (apply Forall_cons; [ first [ exact N1 | exact zero_number ] | ]). apply Forall_nil.
  - unfold solveCVPnP in Cv. cbn [bind] in Cv. injection Cv as <-. split; [ apply (CvToolProofs.cv_pose_rigid (fun _ _ _ => Ok (true, (V3 0 0 0, V3 0 0 1))) sc_intr cs); reflexivity | ]. exact (proj2 (trans_ordinary 0 0 1 ltac:(lra) ltac:(lra) ltac:(lra))).
  - intros cs' Se' c Hc. rewrite (sees_unique _ _ _ _ Se' Se) in Hc. exact (proj1 (Fr c Hc)).
Qed.

(** *** The intrinsics of a camera *)
Definition pg_eyes : vision (list (correspondence vec2)) (list (correspondence vec2)) :=
  Vision (fun img => Ok img) (fun f => match f with [] => true | _ => false end) (fun f => Ok f) (fun _ _ => Ok tt) (fun _ => Ok tt).
Definition pg_finds : block_solver := fun blocks _ =>
  (memory 2 ex_k no_distortion sc_tilt, Summary true 0 (half_squares (flat_map (fun b => rb_eval b (memory 2 ex_k no_distortion sc_tilt)) blocks))).
Lemma pg_finds_honest : honest_blocks pg_finds.
Proof. intros blocks m0. reflexivity. Qed.
Definition pg_cv : calibrate_camera unit := fun _ _ _ _ => Ok (camera_matrix ex_k, [0; 0; 0; 0; 0]).
Definition pg_pictures2 : list (list (correspondence vec2)) := [ex_image2 ex_k (sc_tilt 0); []; ex_image2 ex_k (sc_tilt 1)].
Lemma pg_intrinsic u : exists cv r,
  intrinsicTool pg_eyes (fun _ => tt) pg_cv u ex_solves (fun _ => ex_cov_oracle) pg_finds ex_cov_oracle (Intr 450 450 300 200) (Some (DS pg_pictures2 [])) = Ok (cv, r) /\
  ordinary_camera (fst cv) /\ Forall ordinary_number (snd cv) /\ ordinary_cost (ir_initial_cost_per_obs r) /\ ordinary_cost (ir_final_cost_per_obs r) /\
  ordinary_camera (ir_intrinsics r) /\ Forall ordinary_number (ir_distortions r).
Proof.
  destruct (sc_result u pg_finds sc_views) as [r Hr]; [ cbn; lia | cbn; intros cs [<-|[<-|[]]]; discriminate | ].
  exists (ex_k, [0; 0; 0; 0; 0]), r. split.
  { unfold intrinsicTool. change (intrinsicObservations pg_eyes (DS pg_pictures2 [])) with (Ok (ip_image_observations sc_views)). cbn [bind ds_images pg_pictures2 idx nth_error].
    change (opencvCameraCalibration pg_cv (ip_image_observations sc_views) tt (Intr 450 450 300 200)) with (Ok (ex_k, [0; 0; 0; 0; 0])). cbn [bind].
    change (IP (ip_image_observations sc_views) (Intr 450 450 300 200) default_extr_label) with sc_views. rewrite Hr. reflexivity. }
  destruct (intrinsic_result_right u ex_solves (fun _ => ex_cov_oracle) sc_views) as (blocks & Len & Eval & Res).
  destruct (Res _ _ r Hr) as (_ & _ & start & m' & s & Es & _ & _ & _ & _ & Fk & Fd & Fi & Fc).
  unfold pg_finds in Es. injection Es as <- <-. cbn [final_cost initial_cost] in Fc, Fi. rewrite zero_over in Fi.
  destruct (memory_camera 2 ex_k no_distortion sc_tilt) as [MC ML].
  change (List.length (ip_image_observations sc_views)) with 2%nat in *.
  assert (Z : ir_final_cost_per_obs r = 0).
  { rewrite Fc, half_squares_all_zero; [ apply zero_over | ].
    intros e He. apply in_flat_map in He as (b & Hb & He). apply In_nth_error in Hb as (j & Hj).
    assert (exists ix, nth_error (image_views sc_views (seq 0 2)) j = Some ix) as ((i & x) & Hv).
    { destruct (nth_error (image_views sc_views (seq 0 2)) j) as [ix|] eqn:Q; [ eauto | ]. apply nth_error_None in Q.
      assert (j < List.length blocks)%nat by (apply nth_error_Some; congruence). lia. }
    destruct (image_views_in sc_views i x (nth_error_In _ _ Hv)) as (cs & Hcs & Hx).
    pose proof (Eval (memory 2 ex_k no_distortion sc_tilt) j b i x Hj Hv) as Ev. cbv zeta in Ev.
    assert (i < 2)%nat by (change 2%nat with (List.length (ip_image_observations sc_views)); apply nth_error_Some; congruence).
    rewrite IntrinsicUniqueExample.sc_pose in Ev by assumption. rewrite MC, ML in Ev.
    destruct (IntrinsicUniqueExample.sc_perfect i cs Hcs x Hx) as [_ Im].
    rewrite Ev in He.
    - unfold lens_error in He. rewrite lens_none, <- Im in He. cbn in He. destruct He as [<-|[<-|[]]]; ring.
    - rewrite (sc_images _ _ Hcs) in Hx. apply in_map_iff in Hx as (w & <- & Hv'). cbn [in_target]. pose proof (sc_depth i w Hv'). lra. }
  assert (B : 1000 <= 2 ^ 1000) by (apply Rle_trans with (2 ^ 10); [ lra | apply Rle_pow; [ lra | lia ] ]).
  assert (Ok : ordinary_camera ex_k).
  { unfold ordinary_camera. cbn [ex_k fx fy cx cy]. do 4 (apply Forall_cons; [ unfold ordinary_number; rewrite Rabs_pos_eq; lra | ]). apply Forall_nil. }
  assert (Od : Forall ordinary_number [0; 0; 0; 0; 0]) by (do 5 (apply Forall_cons; [ exact zero_number | ]); apply Forall_nil).
  rewrite Fi, Z, Fk, Fd, MC, ML. cbn [fst snd].
  split; [ exact Ok | split; [ exact Od | split; [ exact zero_ordinary | split; [ exact zero_ordinary | split; [ exact Ok | exact Od ] ] ] ] ].
Qed.

(** *** Pictures without a target *)
Definition pg_blind : list (option iso * iso) := [(None, iso_id); (None, iso_trans (V3 1 0 0))].
Lemma pg_nothing : in_bounds sc_uniform /\ (forall p, In p pg_blind -> harmless sc_vision (fst p)) /\
  (forall p cs, In p pg_blind -> ~ ToolSpec.usable sc_vision (gauss 8) sc_seed sc_uniform 0 p cs) /\ (forall l, Permutation l (co_order ex_cov_oracle l)).
Proof.
  split; [ exact sc_bounds | split; [ | split ] ].
  - intros p _. split; [ exact I | split; [ reflexivity | ] ]. intros f _. split; exact I.
  - intros p cs [<- | [<- | []]] [(f & F & N & _) _]; cbn in F; injection F as <-; discriminate.
  - intros l. apply Permutation_refl.
Qed.
