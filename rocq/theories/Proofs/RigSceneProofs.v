(** When the tools for several cameras return, and a rig on which they do. *)
From Coq Require Import Reals Arith Lia Lra ZArith String List.
From Verif.Base Require Import Geom Outcome.
From Verif.Model Require Import Pose Covariance Solver HandEye BlockSolver MultiCamera DataSet CorrDataSet ExampleTools CameraTools.
From Verif.Spec Require Import Frames CorrDataSpec MultiSpec ToolSpec CameraSpec.
From Verif.Proofs Require Import GeomLemmas ListLemmas HandEyeProofs CorrDataProofs MultiCameraProofs ToolProofs HandEyeToolProofs SceneProofs ScenesProofs CameraToolProofs RigToolProofs.
Import ListNotations.
Local Open Scope R_scope.

Lemma mapM_some {A B} (f : A -> res B) l : (forall a, In a l -> exists b, f a = Ok b) -> exists bs, mapM f l = Ok bs.
Proof.
  intros H. destruct (Forall2_choice (fun a b => f a = Ok b) l H) as [bs F]. exists bs. apply Forall2_mapM, F.
Qed.
Lemma mpnp_returns p solve : mpnp_sizes p -> exists r, optimizeMpnp solve p = Ok r.
Proof. intros S. unfold optimizeMpnp. rewrite (mpnp_blocks_ok p S). cbn [bind]. destruct (solve _ _) as [m s]. eexists. reflexivity. Qed.
Lemma wrist_returns p solve : wrist_sizes p -> exists r, optimizeWrist solve p = Ok r /\ List.length (wr_base_to_camera r) = List.length (wp_base_to_camera_guess p).
Proof.
  intros S. unfold optimizeWrist. rewrite (wrist_blocks_ok p S). cbn [bind]. destruct (solve _ _) as [m s]. eexists. split; [ reflexivity | ]. apply map_length.
Qed.

Section Tools.
  Context {image features : Type} (v : vision image features)
          (draw : image -> list vec2 -> res image) (display : image -> res unit)
          (umask : nat -> nat -> nat) (runs : nat -> block_solver).
  Hypotheses (Hd : forall img ps, exists img', draw img ps = Ok img') (Hs : forall img, display img = Ok tt).
  Lemma reproject_returns run T cams ks img css : cams <> [] -> List.length ks = List.length cams -> List.length css = List.length cams ->
    exists r, reprojectCameras draw display run T cams ks img css = Ok r.
  Proof.
    intros N L1 L2. unfold reprojectCameras. destruct cams as [ | C cams]; [ contradiction | ]. destruct ks as [ | k ks]; [ discriminate | ].
    cbn [idx nth_error bind]. match goal with |- context [draw img ?a] => destruct (Hd img a) as [b ->] end. cbn [bind].
    destruct (mpnp_returns (MP (k :: ks) (C :: cams) css T) run) as [r ->]; [ split; assumption | ]. cbn [bind].
    match goal with |- context [draw img ?a] => destruct (Hd img a) as [c ->] end. cbn [bind]. rewrite !Hs. cbn [bind]. eexists. reflexivity.
  Qed.

  Variables (rig : list (camera image)) (n : nat).
  Hypotheses (Hv : orderly v) (Hr : rig <> []) (He : even rig n).
  Notation data := (map (fun c => data_of (pics c)) rig).
  Lemma rig_pos : (0 < List.length rig)%nat.
  Proof. clear -Hr. destruct rig; [ contradiction | cbn; lia ]. Qed.
  Lemma printed_returns Cs : List.length Cs = List.length rig -> exists pr, printedCameras Cs (List.length rig) = Ok pr.
  Proof.
    intros L. apply mapM_some. intros c Hc. apply in_seq in Hc. pose proof rig_pos. rewrite (idx_ok _ c iso_id), (idx_ok _ 0 iso_id) by lia. cbn [bind]. eexists. reflexivity.
  Qed.

  (** The multi-static tool returns if every camera sees points in some picture and the covariance can be computed. *)
  Lemma static_tool_returns u solve cov W0 :
    (forall cam, In cam rig -> exists p c cs, In p (pics cam) /\ sees_shown v p (c :: cs)) ->
    (forall bs, co_compute cov bs = true) -> (forall bs, co_get cov bs = true) ->
    (forall b i c j, co_cov cov b i c j = co_cov cov c j b i) ->
    exists r, multiStaticTool v draw display umask runs u solve cov W0 (map input rig) = Ok r.
  Proof.
    intros Us C1 C2 C3. unfold multiStaticTool. rewrite static_data, intr_input, pose_input, !map_length. cbn [bind].
    destruct (corr_data_set v umask rig n Hv Hr He) as (cd & Ecd & Ac & Bc & F & _). rewrite Ecd. cbn [bind]. rewrite Ac.
    destruct (mapM_some (staticObservations data cd) (seq 0 (List.length rig))) as [obs Eo].
    { intros c Hc. apply in_seq in Hc. destruct (nth_error rig c) as [cam | ] eqn:Ec; [ | apply nth_error_None in Ec; lia ].
      destruct (static_observations v umask rig n Hv Hr He cd c cam Ecd Ec) as (sel & _ & E). eexists. exact E. }
    rewrite Eo. cbn [bind]. rewrite <- Ac in Eo. destruct (static_all v umask rig n Hv Hr He cd obs Ecd Eo) as (sels & Ch & ->). rewrite Ac in Eo.
    pose proof (Forall2_len _ _ _ Ch) as Ls. rewrite !map_map. cbn [of_sel fst snd].
    destruct (static_succeeds (SP (map intr_of rig) (map (fun x => map fst (at_poses x)) sels) (map (fun x => map snd (at_poses x)) sels) W0 (map pose_of rig) "wrist_to_target" "base_to_camera") u solve cov) as [r Er].
    - unfold static_sizes. cbn [sp_base_to_camera_guess sp_intr sp_wrist_poses sp_image_observations]. rewrite !map_length. repeat split; auto.
      intros c _. rewrite <- (map_map at_poses (map fst)), <- (map_map at_poses (map snd)), !nth_map_nil, !map_length. reflexivity.
    - intros c Hc. cbn [sp_base_to_camera_guess] in Hc. rewrite map_length in Hc. destruct (nth_error rig c) as [cam | ] eqn:Ec; [ | apply nth_error_None in Ec; lia ].
      destruct (Forall2_nth_l _ _ _ _ _ Ch Ec) as (sel & Es & Chs). destruct (Us cam (nth_error_In _ _ Ec)) as (p & x & cs & Hp & Sp).
      assert (Hi : exists i, nth_error sel i = Some (p, x :: cs)).
      { apply In_nth_error. clear -Chs Hp Sp. induction Chs as [ | a b l r Hb Chs IH | a l r Hn Chs IH]; [ destruct Hp | | ].
        - destruct Hp as [<- | Hp]; [ left; f_equal; exact (shown_unique v _ _ _ Hb Sp) | right; apply IH, Hp ].
        - destruct Hp as [<- | Hp]; [ exfalso; exact (Hn _ Sp) | apply IH, Hp ]. }
      destruct Hi as [i Hi]. exists i, x. unfold static_views, views, camera_major.
      cbn [sp_base_to_camera_guess sp_wrist_poses sp_image_observations]. apply in_flat_map. exists (c, i). split.
      + apply in_flat_map. exists c. split; [ apply in_seq; rewrite map_length; lia | ]. apply in_map, in_seq. split; [ lia | ].
        rewrite (nth_of_error _ c (map fst (at_poses sel))) by (rewrite nth_error_map, Es; reflexivity). unfold at_poses. rewrite !map_length.
        apply nth_error_Some. congruence.
      + cbn [fst snd]. apply in_map_iff. exists x. split; [ reflexivity | ].
        rewrite (nth_of_error _ c (map snd (at_poses sel))) by (rewrite nth_error_map, Es; reflexivity). unfold at_poses. rewrite map_map.
        rewrite (nth_of_error _ i (x :: cs)) by (rewrite nth_error_map, Hi; reflexivity). left. reflexivity.
    - cbn. rewrite map_length. exact rig_pos.
    - exact C1.
    - exact C2.
    - exact C3.
    - rewrite Er. cbn [bind].
      assert (Lr : List.length (sr_base_to_camera r) = List.length rig).
      { unfold optimizeStatic in Er. destruct (static_blocks _) as [bl | |]; cbn [bind] in Er; try discriminate.
        destruct (solve bl _) as [m s]. destruct (computeCovariance _ _ _ _ _) as [c | |]; cbn [bind] in Er; try discriminate.
        injection Er as <-. cbn [sr_base_to_camera]. rewrite map_length, seq_length. cbn. apply map_length. }
      destruct (printed_returns _ Lr) as [pr ->]. cbn [bind].
      assert (Sh : exists sh, staticReprojections draw display runs data cd r (map intr_of rig) (List.length rig) = Ok sh); [ | destruct Sh as [sh ->]; eexists; reflexivity ].
      unfold staticReprojections. destruct (data_first rig n Hr He) as (cam0 & H0 & E0 & L0). rewrite E0. cbn [bind data_of ds_images ds_tool_poses].
      rewrite map_length, L0.
      match goal with |- exists sh, foldM ?f (seq 0 n) [] = Ok sh => destruct (foldM_seq_inv (fun _ _ => True) f 0 n []) as (st & -> & _); [ exact I | | eexists; reflexivity ] end.
      intros i st Hi _. cbn in Hi. destruct (nth_error (pics cam0) i) as [p0 | ] eqn:Ep0; [ | apply nth_error_None in Ep0; lia ].
      rewrite (idx_some (map snd (pics cam0)) i (snd p0)) by (rewrite nth_error_map, Ep0; reflexivity). cbn [bind].
      destruct (static_seen v umask rig n Hv Hr He cd (sr_base_to_camera r) i Ecd Lr) as (seen & _ & img & -> & Im); [ lia | ]. cbn [bind]. rewrite map_length.
      destruct (Nat.leb_spec 2 (List.length seen)) as [Le | _]; [ | eexists; split; [ reflexivity | exact I ] ].
      destruct seen as [ | s rest]; [ cbn in Le; lia | ]. destruct (Im s rest eq_refl) as (p & _ & ->).
      match goal with |- context [reprojectCameras _ _ ?a ?b ?c ?d ?e ?g] => destruct (reproject_returns a b c d e g) as [q ->]; [ discriminate | rewrite !map_length; reflexivity | rewrite !map_length; reflexivity | ] end.
      cbn [bind]. eexists. split; [ reflexivity | exact I ].
  Qed.

  Hypothesis (HZ : (Z.of_nat (List.length rig) < 2 ^ 32)%Z).
  Lemma chosen_len {A B} (P : A -> B -> Prop) l r : chosen P l r -> (List.length r <= List.length l)%nat.
  Proof. induction 1; cbn; lia. Qed.
  Lemma step_tool_returns solve solve_wrist fix_first W :
    exists r, stepTool v draw display umask runs solve solve_wrist fix_first W (map input rig) = Ok r.
  Proof.
    unfold stepTool. rewrite camera_data, intr_input, pose_input, !map_length. cbn [bind].
    destruct (corr_data_set v umask rig n Hv Hr He) as (cd & Ecd & _). rewrite Ecd. cbn [bind].
    destruct (step_images v umask rig n Hv Hr He HZ cd W Ecd) as (kept & Ch & ->). cbn [bind].
    replace (map (ofCamera (map (as_kept W) kept)) (seq 0 (List.length rig))) with (map (fun c => map snd (of_nth c kept)) (seq 0 (List.length rig)))
      by (apply map_ext; intros c; unfold ofCamera, of_nth; rewrite !map_map; reflexivity).
    rewrite !map_map. cbn [as_kept fst snd].
    destruct (only_returns _ solve (only_of_sizes rig fix_first W kept)) as (o & Eo & Lo & _). unfold only_of in Eo, Lo. rewrite Eo. cbn [bind].
    cbn [op_base_to_camera_guess] in Lo. rewrite map_length in Lo. destruct (printed_returns _ Lo) as [pr ->]. cbn [bind].
    destruct (wrist_returns _ solve_wrist (wrist_of_sizes rig W kept _ Lo)) as (w & Ew & Lw). unfold wrist_of in Ew, Lw. rewrite Ew. cbn [bind].
    cbn [wp_base_to_camera_guess] in Lw. rewrite Lo in Lw. destruct (printed_returns _ Lw) as [pr' ->]. cbn [bind].
    assert (Sh : exists sh, stepReprojections draw display runs data (map (fun k => fst (snd k)) kept) (wr_wrist_to_target w) (wr_base_to_camera w) (map intr_of rig)
        (map (fun c => map snd (of_nth c kept)) (seq 0 (List.length rig))) (List.length rig) = Ok sh); [ | destruct Sh as [sh ->]; eexists; reflexivity ].
    apply mapM_some. intros i Hi. rewrite map_length in Hi. apply in_seq in Hi. pose proof (chosen_len _ _ _ Ch) as Lk. rewrite seq_length in Lk.
    destruct (nth_error kept i) as [k | ] eqn:Hk; [ | apply nth_error_None in Hk; lia ].
    rewrite (idx_some _ i (fst (snd k))) by (rewrite nth_error_map, Hk; reflexivity). cbn [bind].
    match goal with |- context [mapM ?f (seq 0 ?m)] => destruct (mapM_some f (seq 0 m)) as [st Est] end.
    { intros c Hc. apply in_seq in Hc. rewrite (idx_ok _ c iso_id) by lia. cbn [bind]. rewrite (idx_ok _ c intr0) by (rewrite map_length; lia). cbn [bind].
      rewrite (idx_some _ c (map snd (of_nth c kept))) by (rewrite nth_error_map, (nth_error_nth' _ 0%nat) by (rewrite seq_length; lia); rewrite seq_nth by lia; reflexivity).
      cbn [bind]. rewrite (idx_some _ i (nth c (snd (snd k)) [])) by (unfold of_nth; rewrite map_map, nth_error_map, Hk; reflexivity). eexists. reflexivity. }
    rewrite Est. cbn [bind]. apply mapM_Forall2, Forall2_len in Est. rewrite seq_length in Est.
    destruct (data_first rig n Hr He) as (cam & H0 & -> & L0). cbn [bind data_of ds_images].
    destruct (nth_error (pics cam) i) as [p | ] eqn:Ep; [ | apply nth_error_None in Ep; lia ].
    rewrite (idx_some _ i (fst p)) by (rewrite nth_error_map, Ep; reflexivity). cbn [bind].
    apply reproject_returns; [ | rewrite !map_length; reflexivity | rewrite !map_length; reflexivity ].
    pose proof rig_pos. destruct st; [ cbn in Est; lia | discriminate ].
  Qed.
  Lemma pnp_tool_returns : exists r, multiPnpTool v draw display umask runs (map input rig) = Ok r.
  Proof.
    unfold multiPnpTool. rewrite camera_data, intr_input, pose_input, !map_length. cbn [bind].
    destruct (corr_data_set v umask rig n Hv Hr He) as (cd & Ecd & _ & Bc & _). rewrite Ecd. cbn [bind]. rewrite Bc.
    match goal with |- exists sh, foldM ?f (seq 0 n) [] = Ok sh => destruct (foldM_seq_inv (fun _ _ => True) f 0 n []) as (st & -> & _); [ exact I | | eexists; reflexivity ] end.
    intros i st Hi _. cbn in Hi.
    destruct (image_common v umask rig n Hv Hr He HZ cd i Ecd) as (m & cam & p & -> & -> & -> & Et & Eimg & _ & _ & Yes & _); [ lia | ]. cbn [bind].
    destruct (Nat.eqb_spec m (List.length rig)) as [Eq | _]; [ | eexists; split; [ reflexivity | exact I ] ].
    destruct (Yes Eq) as (css & S & ->). cbn [bind]. rewrite Et, Eimg. cbn [bind].
    match goal with |- context [reprojectCameras _ _ ?a ?b ?c ?d ?e ?g] => destruct (reproject_returns a b c d e g) as [q ->] end.
    - intros H. apply map_eq_nil in H. contradiction.
    - rewrite !map_length. reflexivity.
    - rewrite map_length. symmetry. exact (Forall2_len _ _ _ S).
    - cbn [bind]. eexists. split; [ reflexivity | exact I ].
  Qed.
End Tools.

(** A data set that could not be loaded. *)
Lemma mapM_fails {A B} (f : A -> res B) (e : res B) l a : (forall x, (exists b, f x = Ok b) \/ f x = e) -> In a l -> f a = e -> (forall b, e <> Ok b) ->
  mapM f l = match e with Ok _ => UB | Throw x => Throw x | UB => UB end.
Proof.
  intros D Ha Fa N. induction l as [ | x l IH]; [ destruct Ha | ]. cbn.
  destruct (D x) as [[b Eb] | Ex].
  - rewrite Eb. cbn [bind]. destruct Ha as [-> | Ha]; [ exfalso; apply (N b); congruence | ]. rewrite (IH Ha).
    destruct e as [b' | y |]; [ exfalso; exact (N b' eq_refl) | reflexivity | reflexivity ].
  - rewrite Ex. destruct e as [b' | y |]; [ exfalso; exact (N b' eq_refl) | reflexivity | reflexivity ].
Qed.
Lemma missing_data {image features} (v : vision image features) draw display umask runs cameras :
  (exists c, In c cameras /\ cam_data c = None) ->
  (forall u solve cov W0, multiStaticTool v draw display umask runs u solve cov W0 cameras = UB) /\
  (forall solve solve_wrist fix_first W0, stepTool v draw display umask runs solve solve_wrist fix_first W0 cameras = Throw RuntimeError) /\
  multiPnpTool v draw display umask runs cameras = Throw RuntimeError.
Proof.
  intros (c & Hc & E).
  assert (A : mapM (@staticData image) cameras = UB).
  { apply (mapM_fails staticData UB cameras c); [ | exact Hc | unfold staticData; rewrite E; reflexivity | discriminate ].
    intros x. unfold staticData. destruct (cam_data x) as [d | ]; [ left; exists d; reflexivity | right; reflexivity ]. }
  assert (B : mapM (@cameraData image) cameras = Throw RuntimeError).
  { apply (mapM_fails cameraData (Throw RuntimeError) cameras c); [ | exact Hc | unfold cameraData; rewrite E; reflexivity | discriminate ].
    intros x. unfold cameraData. destruct (cam_data x) as [d | ]; [ left; exists d; reflexivity | right; reflexivity ]. }
  split; [ intros; unfold multiStaticTool; rewrite A; reflexivity | ]. split; [ intros; unfold stepTool; rewrite B; reflexivity | unfold multiPnpTool; rewrite B; reflexivity ].
Qed.

(** ** A rig of two cameras that share picture number one *)
Definition sc_rig : list (camera (option iso)) :=
  [Camera [(None, iso_id); (Some iso_id, iso_id); (Some sc_move, sc_move)] sc_intr iso_id;
   Camera [(Some iso_id, iso_id); (Some iso_id, iso_id); (None, sc_move)] sc_intr sc_move].
Definition sc_draw (img : option iso) (_ : list vec2) : res (option iso) := Ok img.
Definition sc_display (_ : option iso) : res unit := Ok tt.
Lemma sc_rig_fits : orderly sc_vision /\ sc_rig <> [] /\ even sc_rig 3 /\ (Z.of_nat (List.length sc_rig) < 2 ^ 32)%Z /\
  (forall cam, In cam sc_rig -> plain_pose (pose_of cam)) /\
  (forall cam p, In cam sc_rig -> In p (pics cam) -> plain_pose (snd p)) /\
  (forall cam, In cam sc_rig -> exists p c cs, In p (pics cam) /\ sees_shown sc_vision p (c :: cs)).
Proof.
  split; [ | split; [ discriminate | split; [ | split; [ cbn; lia | split; [ | split ] ] ] ] ].
  - split; [ | split ]; repeat intro; exact I.
  - intros c [<- | [<- | []]]; reflexivity.
  - intros c [<- | [<- | []]]; [ exact plain_id | apply plain_id_tr ].
  - intros c p [<- | [<- | []]] Hp; cbn in Hp; intuition (subst; cbn [snd]; first [ exact plain_id | apply plain_id_tr ]).
  - intros c Hc. exists (Some iso_id, iso_id). pose proof (sc_shown vzero iso_id) as X. change (iso_trans vzero) with iso_id in X.
    unfold sc_seen in X. cbn [map sc_points] in X. eexists. eexists. split; [ destruct Hc as [<- | [<- | []]]; cbn; auto | exact X ].
Qed.
Definition sc_kept : list (nat * (iso * list (list (correspondence vec2)))) := [(1%nat, (iso_id, [sc_seen iso_id; sc_seen iso_id]))].
Lemma sc_none T cs : ~ sees_shown sc_vision (None, T) cs.
Proof. intros (f & F & N & _). cbn in F. injection F as <-. discriminate. Qed.
Lemma sc_common : chosen (common sc_vision sc_rig) (seq 0 3) sc_kept.
Proof.
  cbn [seq]. constructor 3.
  - intros [T css] [_ S]. cbn [snd] in S. inversion S as [ | a b l r (p & Ep & Sp) F ]; subst. cbn in Ep. injection Ep as <-. exact (sc_none _ _ Sp).
  - constructor.
    + split; [ eexists; eexists; repeat split; reflexivity | ]. pose proof (sc_shown vzero iso_id) as X. change (iso_trans vzero) with iso_id in X.
      constructor; [ | constructor; [ | constructor ] ]; (exists (Some iso_id, iso_id); split; [ reflexivity | exact X ]).
    + constructor 3; [ | constructor ]. intros [T css] [_ S]. cbn [snd] in S. inversion S as [ | a b l r Y F ]; subst. inversion F as [ | a' b' l' r' (p & Ep & Sp) F' ]; subst.
      cbn in Ep. injection Ep as <-. exact (sc_none _ _ Sp).
Qed.
Lemma sc_tools_return u solve solve_wrist W0 fix_first umask runs :
  (exists r, multiStaticTool sc_vision sc_draw sc_display umask runs u solve ex_cov_oracle W0 (map input sc_rig) = Ok r) /\
  (exists r, stepTool sc_vision sc_draw sc_display umask runs solve solve_wrist fix_first W0 (map input sc_rig) = Ok r) /\
  (exists r, multiPnpTool sc_vision sc_draw sc_display umask runs (map input sc_rig) = Ok r).
Proof.
  destruct sc_rig_fits as (A & B & C & D & _ & _ & U).
  assert (Hd : forall (img : option iso) (ps : list vec2), exists img', sc_draw img ps = Ok img') by (intros; eexists; reflexivity).
  assert (Hs : forall img, sc_display img = Ok tt) by reflexivity.
  split; [ | split ].
  - apply (static_tool_returns sc_vision sc_draw sc_display umask runs Hd Hs sc_rig 3 A B C); [ exact U | reflexivity | reflexivity | apply ex_oracle_sym ].
  - apply (step_tool_returns sc_vision sc_draw sc_display umask runs Hd Hs sc_rig 3 A B C D).
  - apply (pnp_tool_returns sc_vision sc_draw sc_display umask runs Hd Hs sc_rig 3 A B C D).
Qed.

(** The multi-step tool shows picture number zero with the points of picture number one. *)
Lemma step_wrong_picture : exists (rig : list (camera (option iso))) kept, orderly sc_vision /\ even rig 3 /\
  chosen (common sc_vision rig) (seq 0 3) kept /\
  forall umask runs solve solve_wrist fix_first W, exists o printed w printed' shown,
  stepTool sc_vision sc_draw sc_display umask runs solve solve_wrist fix_first W (map input rig) = Ok (o, printed, w, printed', shown) /\
  exists k r img, kept = [k] /\ shown = [r] /\ first_picture rig (fst k) img /\ rj_image r <> img.
Proof.
  destruct sc_rig_fits as (A & B & C & D & _). exists sc_rig, sc_kept. split; [ exact A | ]. split; [ exact C | ]. split; [ exact sc_common | ].
  intros umask runs solve solve_wrist fix_first W.
  destruct (sc_tools_return (fun _ _ => 0) solve solve_wrist W fix_first umask runs) as (_ & ([[[[o printed] w] printed'] shown] & T) & _).
  exists o, printed, w, printed', shown. split; [ exact T | ].
  destruct (step_shows _ _ _ _ _ _ _ A B C D _ _ _ _ _ _ _ _ _ T) as (kept & Ch & F).
  assert (kept = sc_kept).
  { refine (chosen_unique _ _ _ _ sc_common _ Ch). intros i [T1 c1] [T2 c2] [F1 S1] [F2 S2]. cbn [fst snd] in *.
    destruct F1 as (a1 & p1 & E1 & E1' & <-), F2 as (a2 & p2 & E2 & E2' & <-). rewrite E1 in E2. injection E2 as <-. rewrite E1' in E2'. injection E2' as <-. f_equal.
    clear -S1 S2. revert c2 S2. unfold all_see in *. induction S1 as [ | x y l r (q & Eq & Sq) S1 IH]; intros c2 S2; inversion S2 as [ | x' y' l' r' (q' & Eq' & Sq') S2']; subst; [ reflexivity | ].
    f_equal; [ | apply IH, S2' ]. rewrite Eq in Eq'. injection Eq' as <-. exact (shown_unique sc_vision _ _ _ Sq Sq'). }
  subst kept. cbn in F. inversion F as [ | x r l rs (img & Fp & Rp) F']; subst. inversion F'; subst.
  exists (1%nat, (iso_id, [sc_seen iso_id; sc_seen iso_id])), r, (Some iso_id). split; [ reflexivity | ]. split; [ reflexivity | ].
  split; [ eexists; eexists; repeat split; reflexivity | ].
  destruct Rp as (k & C0 & cs & rest & _ & Ei & _). rewrite Ei. destruct Fp as (a & p & E & E' & <-). cbn in E. injection E as <-. cbn in E'. injection E' as <-. discriminate.
Qed.
(** A rig whose only picture shows nothing. *)
Lemma step_dark : exists (rig : list (camera (option iso))) cam, orderly sc_vision /\ even rig 1 /\ nth_error rig 0 = Some cam /\
  plain_pose (pose_of cam) /\ (forall i css, ~ all_see sc_vision rig i css) /\
  forall umask runs solve solve_wrist W, leaves_others solve -> exists o printed w printed' shown,
  stepTool sc_vision sc_draw sc_display umask runs solve solve_wrist true W (map input rig) = Ok (o, printed, w, printed', shown) /\
  or_base_to_camera o = [iso_id] /\ pose_of cam <> iso_id.
Proof.
  destruct sc_rig_fits as (A & _). pose (cam := Camera [(@None iso, iso_id)] sc_intr sc_move). exists [cam], cam.
  assert (E : even [cam] 1) by (intros c [<- | []]; reflexivity).
  assert (N : forall i css, ~ all_see sc_vision [cam] i css).
  { intros i css S. inversion S as [ | a b l r (p & Ep & Sp) F ]; subst. destruct i as [ | [ | i]]; cbn in Ep; try discriminate. injection Ep as <-. exact (sc_none _ _ Sp). }
  split; [ exact A | ]. split; [ exact E | ]. split; [ reflexivity | ]. split; [ apply plain_id_tr | ]. split; [ exact N | ].
  intros umask runs solve solve_wrist W Lo.
  assert (Hd : forall (img : option iso) (ps : list vec2), exists img', sc_draw img ps = Ok img') by (intros; eexists; reflexivity).
  assert (Hs : forall img, sc_display img = Ok tt) by reflexivity.
  assert (B : [cam] <> []) by discriminate. assert (D : (Z.of_nat (List.length [cam]) < 2 ^ 32)%Z) by (cbn; lia).
  destruct (step_tool_returns sc_vision sc_draw sc_display umask runs Hd Hs [cam] 1 A B E D solve solve_wrist true W) as ([[[[o printed] w] printed'] shown] & T).
  exists o, printed, w, printed', shown. split; [ exact T | ]. split.
  - exact (step_no_images _ _ _ _ _ _ _ A B E D _ _ _ _ _ _ _ _ _ Lo N T).
  - intros H. apply (f_equal (fun t => vx (tr t))) in H. cbn in H. lra.
Qed.
