(** The loops of the intrinsic, validation, noise and example programs. *)
From Coq Require Import Reals Arith Lia Lra String List Permutation.
From Verif.Base Require Import Geom Outcome.
From Verif.Model Require Import Pose Covariance Solver HandEye Homography Pnp IntrinsicValidation DataSet ExampleTools.
From Verif.Spec Require Import Frames StatSpec PinHole ValidationSpec ToolSpec.
From Verif.Proofs Require Import GeomLemmas ListLemmas PoseProofs PnpProofs IntrinsicValidationProofs ToolProofs HandEyeToolProofs.
Import ListNotations.
Local Open Scope R_scope.

Lemma chosen_snoc_yes {A B} (P : A -> B -> Prop) l r a b : chosen P l r -> P a b -> chosen P (l ++ [a]) (r ++ [(a, b)]).
Proof. intros H Hp. apply chosen_app; [ exact H | constructor; [ exact Hp | constructor ] ]. Qed.
Lemma chosen_snoc_no {A B} (P : A -> B -> Prop) l r a : chosen P l r -> (forall b, ~ P a b) -> chosen P (l ++ [a]) r.
Proof. intros H Hn. rewrite <- (app_nil_r r). apply chosen_app; [ exact H | constructor 3; [ exact Hn | constructor ] ]. Qed.

Section Loops.
  Context {image features : Type} (v : vision image features).

  (** ** Intrinsic calibration *)
  Lemma intrinsic_images images poses obs : intrinsicObservations v (DS images poses) = Ok obs ->
    exists sel, chosen (sees v) images sel /\ obs = map snd sel.
  Proof.
    unfold intrinsicObservations. cbn [ds_images].
    apply (foldM_pairs _ (fun pre obs => exists sel, chosen (sees v) pre sel /\ obs = map snd sel)).
    - exists []. split; constructor.
    - intros pre img post st st' _ (sel & Ch & ->) E. unfold intrinsicObservation, findFeatures in E.
      destruct (find v img) as [f | e |] eqn:F; cbn [bind] in E; try discriminate.
      + destruct (none v f) eqn:N; cbn [bind runtime_error] in E.
        * injection E as <-. exists sel. split; [ | reflexivity ]. apply chosen_snoc_no; [ exact Ch | ].
          intros cs (f' & F' & N' & _). congruence.
        * destruct (create v f) as [cs | e |] eqn:C; cbn [bind] in E; try discriminate.
          -- destruct (show_features v img f) as [[] | |]; cbn [bind] in E; try discriminate. injection E as <-.
             exists (sel ++ [(img, cs)]). split; [ apply chosen_snoc_yes; [ exact Ch | ]; exists f; auto | rewrite map_app; reflexivity ].
          -- destruct (runtime_error e); [ | discriminate ]. injection E as <-. exists sel. split; [ | reflexivity ].
             apply chosen_snoc_no; [ exact Ch | ]. intros cs (f' & F' & _ & C'). congruence.
      + destruct (runtime_error e); [ | discriminate ]. injection E as <-. exists sel. split; [ | reflexivity ].
        apply chosen_snoc_no; [ exact Ch | ]. intros cs (f' & F' & _). congruence.
  Qed.
  Lemma intrinsic_succeeds images poses : (forall img, In img images -> tame v img) ->
    exists obs, intrinsicObservations v (DS images poses) = Ok obs.
  Proof.
    intros H. unfold intrinsicObservations. cbn [ds_images].
    destruct (foldM_ok_inv (fun _ _ => True) (intrinsicObservation v) images []) as (obs & E & _); [ exact I | | exists obs; exact E ].
    intros pre img post st El _. destruct (H img) as [Hf Hs]; [ rewrite El; apply in_or_app; right; left; reflexivity | ].
    unfold intrinsicObservation, findFeatures. destruct (find v img) as [f | e |]; cbn [bind guarded] in *.
    - destruct (Hs f eq_refl) as [Hc Hd]. destruct (none v f); cbn [bind runtime_error]; [ eauto | ].
      destruct (create v f) as [cs | e |]; cbn [bind guarded] in *; [ rewrite Hd; cbn [bind]; eauto | rewrite std_is in Hc; rewrite Hc; eauto | contradiction ].
    - rewrite std_is in Hf. rewrite Hf. eauto.
    - contradiction.
  Qed.

  (** ** Validation *)
  Notation validRound := (fun (obs : list (observation vec2)) (p : image * iso) =>
    match (do f <- findFeatures v (fst p); do _ <- show_features v (fst p) f; Ok f) with
    | Ok f => do cs <- create v f; Ok (obs ++ [on_wrist cs (snd p)])
    | Throw e => if runtime_error e then do _ <- show_image v (fst p); Ok obs else Throw e
    | UB => UB
    end).
  Lemma validation_pairs ps : validationObservations v (data_of ps) = foldM validRound ps [].
  Proof.
    unfold validationObservations, data_of. cbn [ds_images]. rewrite map_length. apply foldM_index. intros pre p post st ->.
    unfold validationObservation. cbn [ds_images ds_tool_poses]. rewrite idx_middle. cbn [bind].
    destruct (do f <- findFeatures v (fst p); _) as [f | |]; try reflexivity. rewrite idx_middle. reflexivity.
  Qed.
  Lemma validation_images ps obs : validationObservations v (data_of ps) = Ok obs ->
    exists sel, chosen (sees_shown v) ps sel /\ obs = map camera_moves sel.
  Proof.
    rewrite validation_pairs.
    apply (foldM_pairs _ (fun pre obs => exists sel, chosen (sees_shown v) pre sel /\ obs = map camera_moves sel)).
    - exists []. split; constructor.
    - intros pre p post st st' _ (sel & Ch & ->) E. unfold findFeatures in E.
      assert (No : forall st', (do _ <- show_image v (fst p); Ok (map camera_moves sel)) = Ok st' -> (forall cs, ~ sees_shown v p cs) ->
                exists sel', chosen (sees_shown v) (pre ++ [p]) sel' /\ st' = map camera_moves sel').
      { intros s2 E2 N. destruct (show_image v (fst p)); cbn [bind] in E2; try discriminate. injection E2 as <-. exists sel.
        split; [ apply chosen_snoc_no; assumption | reflexivity ]. }
      destruct (find v (fst p)) as [f | e |] eqn:F; cbn [bind] in E; try discriminate.
      + destruct (none v f) eqn:N; cbn [bind runtime_error] in E.
        * apply No; [ exact E | ]. intros cs (f' & F' & N' & _). congruence.
        * destruct (show_features v (fst p) f) as [[] | e |] eqn:S; cbn [bind] in E; try discriminate.
          -- destruct (create v f) as [cs | |] eqn:C; cbn [bind] in E; try discriminate. injection E as <-.
             exists (sel ++ [(p, cs)]). split; [ apply chosen_snoc_yes; [ exact Ch | ]; exists f; auto | rewrite map_app; reflexivity ].
          -- destruct (runtime_error e); [ | discriminate ]. apply No; [ exact E | ]. intros cs (f' & F' & _ & S' & _). congruence.
      + destruct (runtime_error e); [ | discriminate ]. apply No; [ exact E | ]. intros cs (f' & F' & _). congruence.
  Qed.
  Lemma validation_succeeds ps : (forall p, In p ps -> quiet v (fst p)) -> exists obs, validationObservations v (data_of ps) = Ok obs.
  Proof.
    intros H. rewrite validation_pairs.
    destruct (foldM_ok_inv (fun _ _ => True) validRound ps []) as (obs & E & _); [ exact I | | exists obs; exact E ].
    intros pre p post st El _. destruct (H p) as (Hf & Hi & Hs); [ rewrite El; apply in_or_app; right; left; reflexivity | ].
    unfold findFeatures. destruct (find v (fst p)) as [f | e |]; cbn [bind guarded] in *.
    - destruct (Hs f eq_refl) as [Hc Hd]. destruct (none v f); cbn [bind runtime_error]; [ rewrite Hi; cbn [bind]; eauto | ].
      destruct (show_features v (fst p) f) as [[] | e |]; cbn [bind guarded] in *.
      + destruct (Hd eq_refl eq_refl) as [cs ->]. cbn [bind]. eauto.
      + rewrite std_is in Hc. rewrite Hc, Hi. cbn [bind]. eauto.
      + contradiction.
    - rewrite std_is in Hf. rewrite Hf, Hi. cbn [bind]. eauto.
    - contradiction.
  Qed.
  (** Features that cannot be paired end the loop. *)
  Lemma validation_stops l1 p l2 f e : (forall q, In q l1 -> quiet v (fst q)) ->
    find v (fst p) = Ok f -> none v f = false -> show_features v (fst p) f = Ok tt -> create v f = Throw e ->
    validationObservations v (data_of (l1 ++ p :: l2)) = Throw e.
  Proof.
    intros H F N S C. destruct (validation_succeeds l1 H) as [obs E]. rewrite validation_pairs in E |- *. rewrite foldM_app, E.
    cbn [bind foldM]. unfold findFeatures. rewrite F. cbn [bind]. rewrite N. cbn [bind]. rewrite S. cbn [bind]. rewrite C. reflexivity.
  Qed.

  Lemma tolerance_iff r pt at' : within_tolerance r pt at' = true <->
    fst (ar_pos_error r) + 2 * snd (ar_pos_error r) <= pt /\ fst (ar_ang_error r) + 2 * snd (ar_ang_error r) <= at'.
  Proof.
    unfold within_tolerance. destruct (Rlt_dec pt _) as [H | H]; [ split; [ discriminate | lra ] | ].
    destruct (Rlt_dec at' _) as [H2 | H2]; [ split; [ discriminate | lra ] | ]. split; [ lra | reflexivity ].
  Qed.
  Lemma validation_verdict runs k T C ps b : validationTool v runs k T C (Some (data_of ps)) = Ok b ->
    exists sel vs, chosen (sees_shown v) ps sel /\ sel <> [] /\ List.length vs = List.length sel /\
      (forall i s d, nth_error sel i = Some s -> nth_error vs i = Some d ->
         measureVirtualTargetDiff (fst (runs i)) (snd (runs i)) (snd s) k (target_from_tool (snd (fst s)) C T) 1 = Ok d) /\
      let ds := map vr_positional_error vs in let angles := map vr_angular_error vs in
      (b = true <-> average ds + 2 * std_dev ds <= 1 / 1000 /\ average angles + 2 * std_dev angles <= 5 / 100 * PI / 180).
  Proof.
    unfold validationTool. destruct (validationObservations v (data_of ps)) as [obs | |] eqn:E; cbn [bind]; try discriminate.
    apply validation_images in E. destruct E as (sel & Ch & ->).
    destruct (measureIntrinsicCalibrationAccuracy _ _ _ _ _ _ _) as [r | |] eqn:M; cbn [bind]; try discriminate. intros H. injection H as <-.
    apply accuracy_spec in M. destruct M as (N & _ & vs & L & V & P & A). exists sel, vs.
    split; [ exact Ch | ]. split; [ intros ->; apply N; reflexivity | ]. split; [ rewrite L, map_length; reflexivity | ]. split.
    - intros i s d Hs Hd. specialize (V i (camera_moves s) d). rewrite nth_error_map, Hs in V. specialize (V eq_refl Hd).
      rewrite iso_mul_id_l in V. cbn [camera_moves correspondence_set to_camera_mount to_target_mount] in V. rewrite from_tool in V. exact V.
    - cbv zeta. rewrite tolerance_iff, P, A. reflexivity.
  Qed.
  Lemma validation_no_target runs k T C ps : (forall p, In p ps -> quiet v (fst p)) -> (forall p cs, In p ps -> ~ sees_shown v p cs) ->
    validationTool v runs k T C (Some (data_of ps)) = UB.
  Proof.
    intros H N. unfold validationTool. destruct (validation_succeeds ps H) as [obs E]. rewrite E. cbn [bind].
    apply validation_images in E. destruct E as (sel & Ch & ->). rewrite (chosen_none _ _ _ Ch) by (intros a b Ha; apply N, Ha). reflexivity.
  Qed.
  Lemma validation_sizes runs k T C ps sel : (forall p, In p ps -> quiet v (fst p)) -> chosen (sees_shown v) ps sel ->
    (exists s s', In s sel /\ In s' sel /\ List.length (snd s) <> List.length (snd s')) ->
    validationTool v runs k T C (Some (data_of ps)) = Throw OptimizationException.
  Proof.
    intros H Ch (s & s' & I & I' & D). unfold validationTool. destruct (validation_succeeds ps H) as [obs E]. rewrite E. cbn [bind].
    apply validation_images in E. destruct E as (sel' & Ch' & ->).
    assert (sel' = sel).
    { refine (chosen_unique _ _ _ _ Ch _ Ch'). intros a b b' (f & F & _ & _ & X) (f' & F' & _ & _ & X'). congruence. }
    subst sel'. rewrite accuracy_sizes; [ reflexivity | destruct sel; [ destruct I | discriminate ] | ].
    intros Q. apply D. exact (Q (camera_moves s) (camera_moves s') (in_map _ _ _ I) (in_map _ _ _ I')).
  Qed.

  (** ** The example *)
  Lemma example_images ps obs : exampleObservations v (data_of ps) = Ok obs ->
    exists sel, chosen (returns v) ps sel /\ obs = map camera_moves sel.
  Proof.
    assert (Eq : exampleObservations v (data_of ps) = foldM (fun obs p =>
      match find v (fst p) with
      | Ok f => do cs <- create v f; Ok (obs ++ [on_wrist cs (snd p)])
      | Throw XmlRpcException => Throw XmlRpcException | Throw _ => Ok obs | UB => UB end) ps []).
    { unfold exampleObservations, data_of. cbn [ds_images]. rewrite map_length. apply foldM_index. intros pre p post st ->.
      unfold exampleObservation. cbn [ds_images ds_tool_poses]. rewrite idx_middle. cbn [bind].
      destruct (find v (fst p)) as [f | e |]; try reflexivity. rewrite idx_middle. reflexivity. }
    rewrite Eq. clear Eq.
    apply (foldM_pairs _ (fun pre obs => exists sel, chosen (returns v) pre sel /\ obs = map camera_moves sel)).
    - exists []. split; constructor.
    - intros pre p post st st' _ (sel & Ch & ->) E. destruct (find v (fst p)) as [f | e |] eqn:F; try discriminate.
      + destruct (create v f) as [cs | |] eqn:C; cbn [bind] in E; try discriminate. injection E as <-.
        exists (sel ++ [(p, cs)]). split; [ apply chosen_snoc_yes; [ exact Ch | ]; exists f; auto | rewrite map_app; reflexivity ].
      + exists sel. split; [ apply chosen_snoc_no; [ exact Ch | ]; intros cs (f' & F' & _); congruence | ].
        destruct e; congruence.
  Qed.

  (** ** Noise qualification *)
  Section Noise.
    Variables (read : string -> image) (k : intrinsics) (g : iso).
    Notation noise := (noiseProblems v read k g).
    (** Every round works on the first image. *)
    Lemma noise_first n0 names problems : noise (n0 :: names) = Ok problems ->
      (exists cs, sees_shown v (read n0, iso_id) cs /\ problems = map (fun _ => PnP2 k cs g default_pnp_label) (n0 :: names)) \/
      ((forall cs, ~ sees_shown v (read n0, iso_id) cs) /\ problems = []).
    Proof.
      unfold noiseProblems.
      set (R := noiseProblem v read k g).
      assert (First : forall prev name, R (None, prev) n0 = R (Some (read n0), prev) name).
      { intros prev name. unfold R, noiseProblem. reflexivity. }
      assert (Step : forall prev name st, R (Some (read n0), prev) name = Ok st ->
        (exists cs, sees_shown v (read n0, iso_id) cs /\ st = (Some (read n0), prev ++ [PnP2 k cs g default_pnp_label])) \/
        ((forall cs, ~ sees_shown v (read n0, iso_id) cs) /\ st = (Some (read n0), prev))).
      { intros prev name st E. unfold R, noiseProblem, findFeatures in E.
        assert (No : (do _ <- show_image v (read n0); Ok (Some (read n0), prev)) = Ok st -> st = (Some (read n0), prev)).
        { destruct (show_image v (read n0)); cbn [bind]; try discriminate. congruence. }
        destruct (find v (read n0)) as [f | e |] eqn:F; cbn [bind] in E; try discriminate.
        - destruct (none v f) eqn:N; cbn [bind runtime_error] in E.
          + right. split; [ intros cs (f' & F' & N' & _); cbn [fst] in F'; congruence | exact (No E) ].
          + destruct (show_features v (read n0) f) as [[] | e |] eqn:Sh; cbn [bind] in E; try discriminate.
            * destruct (create v f) as [cs | |] eqn:C; cbn [bind] in E; try discriminate. injection E as <-.
              left. exists cs. split; [ exists f; auto | reflexivity ].
            * destruct (runtime_error e); [ | discriminate ]. right.
              split; [ intros cs (f' & F' & N' & S' & _); cbn [fst] in *; congruence | exact (No E) ].
        - destruct (runtime_error e); [ | discriminate ]. right. split; [ intros cs (f' & F' & _); cbn [fst] in F'; congruence | exact (No E) ]. }
      assert (All : forall l prev st, foldM R l (Some (read n0), prev) = Ok st -> l <> [] ->
        (exists cs, sees_shown v (read n0, iso_id) cs /\ st = (Some (read n0), prev ++ map (fun _ => PnP2 k cs g default_pnp_label) l)) \/
        ((forall cs, ~ sees_shown v (read n0, iso_id) cs) /\ st = (Some (read n0), prev))).
      { induction l as [ | n l IH]; intros prev st E N; [ congruence | ]. cbn [foldM] in E.
        destruct (R (Some (read n0), prev) n) as [st1 | |] eqn:E1; cbn [bind] in E; try discriminate.
        destruct (Step _ _ _ E1) as [(cs & S & ->) | (S & ->)].
        - destruct l as [ | n' l]; [ cbn in E; injection E as <-; left; exists cs; split; [ exact S | reflexivity ] | ].
          destruct (IH _ _ E ltac:(discriminate)) as [(cs' & S' & ->) | (S' & _)]; [ | exfalso; exact (S' cs S) ].
          left. exists cs. split; [ exact S | ]. assert (cs' = cs).
          { destruct S as (f & F & _ & _ & X), S' as (f' & F' & _ & _ & X'). congruence. }
          subst cs'. rewrite <- app_assoc. reflexivity.
        - destruct l as [ | n' l]; [ cbn in E; injection E as <-; right; auto | ].
          destruct (IH _ _ E ltac:(discriminate)) as [(cs' & S' & ->) | (_ & ->)]; [ exfalso; exact (S cs' S') | right; auto ]. }
      intros E. cbn [foldM] in E. rewrite (First [] n0) in E.
      destruct (bind (R (Some (read n0), []) n0) (foldM R names)) as [st | |] eqn:E2; cbn [bind] in E; try discriminate. injection E as <-.
      destruct (All (n0 :: names) [] st E2 ltac:(discriminate)) as [(cs & S & ->) | (S & ->)]; [ left; exists cs; auto | right; auto ].
    Qed.
  End Noise.

  (** ** Reprojections *)
  Lemma reprojections T k pts : getReprojections T k pts = map (fun p => projectPoint_arr k (iso_app T p)) pts.
  Proof. reflexivity. Qed.
End Loops.
