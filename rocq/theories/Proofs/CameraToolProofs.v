(** The tools for several cameras. *)
From Coq Require Import Reals Arith Lia Lra ZArith String List.
From Verif.Base Require Import Geom Outcome.
From Verif.Model Require Import Pose Covariance Solver HandEye BlockSolver MultiCamera DataSet CorrDataSet ExampleTools CameraTools.
From Verif.Spec Require Import Frames CorrDataSpec MultiSpec ToolSpec CameraSpec.
From Verif.Proofs Require Import GeomLemmas ListLemmas CorrDataProofs HandEyeProofs MultiCameraProofs ToolProofs HandEyeToolProofs.
Import ListNotations.
Local Open Scope R_scope.

(** ** Lists *)
Lemma flat_map_seq {A B} (f : nat -> A -> list B) (l : list A) d :
  flat_map (fun i => f i (nth i l d)) (seq 0 (List.length l)) = flat_map (fun p => f (fst p) (snd p)) (combine (seq 0 (List.length l)) l).
Proof.
  enough (G : forall k, flat_map (fun i => f i (nth (i - k) l d)) (seq k (List.length l)) =
                        flat_map (fun p => f (fst p) (snd p)) (combine (seq k (List.length l)) l)).
  { rewrite <- (G 0%nat). f_equal. apply FunctionalExtensionality.functional_extensionality. intros i. rewrite Nat.sub_0_r. reflexivity. }
  induction l as [ | a l IH]; intros k; [ reflexivity | ]. cbn [List.length seq combine flat_map fst snd].
  rewrite Nat.sub_diag. cbn [nth]. f_equal. rewrite <- IH. rewrite !flat_map_concat_map. f_equal. apply map_ext_in.
  intros i Hi. apply in_seq in Hi. replace (i - k)%nat with (S (i - S k)) by lia. reflexivity.
Qed.
Lemma flat_map_nth {A B} (f : A -> list B) (l : list A) d : flat_map (fun i => f (nth i l d)) (seq 0 (List.length l)) = flat_map f l.
Proof.
  rewrite (flat_map_seq (fun _ a => f a)). generalize 0%nat as k.
  induction l as [ | a l IH]; intros k; [ reflexivity | ]. cbn. rewrite IH. reflexivity.
Qed.
Lemma Forall2_nth_l {A B} (P : A -> B -> Prop) l r i a : Forall2 P l r -> nth_error l i = Some a -> exists b, nth_error r i = Some b /\ P a b.
Proof.
  intros H. revert i. induction H as [ | x y l r Hp H IH]; intros [ | i] E; cbn in *; try discriminate; [ | apply IH, E ].
  injection E as <-. exists y. split; [ reflexivity | exact Hp ].
Qed.
Lemma Forall2_len {A B} (P : A -> B -> Prop) l r : Forall2 P l r -> List.length l = List.length r.
Proof. induction 1; cbn; congruence. Qed.
Lemma mapM_Forall2 {A B} (f : A -> res B) l bs : mapM f l = Ok bs -> Forall2 (fun a b => f a = Ok b) l bs.
Proof.
  revert bs. induction l as [ | a l IH]; intros bs E; cbn in E; [ injection E as <-; constructor | ].
  destruct (f a) as [b | |] eqn:F; cbn in E; try discriminate. destruct (mapM f l) as [bs' | |]; cbn in E; try discriminate.
  injection E as <-. constructor; [ exact F | apply IH; reflexivity ].
Qed.
Lemma Forall2_mapM {A B} (f : A -> res B) l bs : Forall2 (fun a b => f a = Ok b) l bs -> mapM f l = Ok bs.
Proof. induction 1 as [ | a b l bs E H IH]; cbn; [ reflexivity | ]. rewrite E. cbn. rewrite IH. reflexivity. Qed.
Lemma Forall2_seq {A B} (P : A -> B -> Prop) (Q : nat -> B -> Prop) l bs :
  (forall i a b, nth_error l i = Some a -> Q i b -> P a b) -> Forall2 Q (seq 0 (List.length l)) bs -> Forall2 P l bs.
Proof.
  intros H. enough (G : forall l2 k bs, (forall i a, nth_error l2 i = Some a -> nth_error l (k + i) = Some a) -> Forall2 Q (seq k (List.length l2)) bs -> Forall2 P l2 bs).
  { apply (G l 0%nat). auto. }
  induction l2 as [ | a l2 IH]; intros k b2 N F; cbn in F; inversion F; subst; constructor.
  - apply (H k); [ | assumption ]. specialize (N 0%nat a eq_refl). rewrite Nat.add_0_r in N. exact N.
  - apply (IH (S k)); [ | assumption ]. intros i x Hx. specialize (N (S i) x Hx). rewrite Nat.add_succ_r in N. exact N.
Qed.
Lemma nth_of_error {A} (l : list A) i a d : nth_error l i = Some a -> nth i l d = a.
Proof. intros H. apply nth_error_nth. exact H. Qed.
Lemma idx_some {A} (l : list A) i a : nth_error l i = Some a -> idx l i = Ok a.
Proof. intros H. unfold idx. rewrite H. reflexivity. Qed.
Lemma idx_inv {A} (l : list A) i a : idx l i = Ok a -> nth_error l i = Some a.
Proof. unfold idx. destruct (nth_error l i); [ congruence | discriminate ]. Qed.

(** Selections over positions and over the elements there. *)
Lemma chosen_map {A A' B} (P : A -> B -> Prop) (P' : A' -> B -> Prop) (g : A' -> A) : forall l sel,
  (forall a b, In a l -> P' a b <-> P (g a) b) -> chosen P' l sel -> chosen P (map g l) (map (fun s => (g (fst s), snd s)) sel).
Proof.
  intros l sel H Ch. induction Ch as [ | a b l r Hp Ch IH | a l r Hn Ch IH]; cbn [map fst snd].
  - constructor.
  - constructor; [ apply H; [ left; reflexivity | exact Hp ] | apply IH; intros; apply H; right; assumption ].
  - constructor 3; [ intros b Hb; apply (Hn b), H; [ left; reflexivity | exact Hb ] | apply IH; intros; apply H; right; assumption ].
Qed.
Lemma chosen_snoc_no {A B} (P : A -> B -> Prop) l a sel : chosen P l sel -> (forall b, ~ P a b) -> chosen P (l ++ [a]) sel.
Proof. intros H N. rewrite <- (app_nil_r sel). apply chosen_app; [ exact H | constructor 3; [ exact N | constructor ] ]. Qed.
Lemma chosen_snoc {A B} (P : A -> B -> Prop) l a b sel : chosen P l sel -> P a b -> chosen P (l ++ [a]) (sel ++ [(a, b)]).
Proof. intros H N. apply chosen_app; [ exact H | constructor; [ exact N | constructor ] ]. Qed.

(** ** Errors of a problem by lists instead of positions *)
Lemma map_flat_map {A B C} (f : B -> C) (g : A -> list B) l : map f (flat_map g l) = flat_map (fun a => map f (g a)) l.
Proof. induction l; cbn; [ reflexivity | rewrite map_app, IHl; reflexivity ]. Qed.
Lemma flat_map_flat_map {A B C} (f : B -> list C) (g : A -> list B) l : flat_map f (flat_map g l) = flat_map (fun a => flat_map f (g a)) l.
Proof. induction l; cbn; [ reflexivity | rewrite flat_map_app', IHl; reflexivity ]. Qed.
Lemma flat_map_map {A B C} (f : B -> list C) (g : A -> B) l : flat_map f (map g l) = flat_map (fun a => f (g a)) l.
Proof. induction l; cbn; [ reflexivity | rewrite IHl; reflexivity ]. Qed.
Lemma flat_map_ext_in' {A B} (f g : A -> list B) l : (forall a, In a l -> f a = g a) -> flat_map f l = flat_map g l.
Proof. intros H. rewrite !flat_map_concat_map. f_equal. apply map_ext_in, H. Qed.
Lemma map_nth_seq {A B} (f : A -> B) l d : map (fun i => f (nth i l d)) (seq 0 (List.length l)) = map f l.
Proof.
  rewrite <- (map_map (fun i => nth i l d) f). f_equal. apply nth_ext with (d := d) (d' := d); [ rewrite map_length, seq_length; reflexivity | ].
  intros i Hi. rewrite map_length, seq_length in Hi. apply nth_of_error. rewrite nth_error_map, (nth_error_nth' _ 0%nat) by (rewrite seq_length; exact Hi).
  rewrite seq_nth by exact Hi. reflexivity.
Qed.
Lemma nth_fst {A B} (l : list (A * B)) i a b : nth i (map fst l) a = fst (nth i l (a, b)).
Proof. exact (map_nth fst l (a, b) i). Qed.
Lemma nth_snd {A B} (l : list (A * B)) i a b : nth i (map snd l) b = snd (nth i l (a, b)).
Proof. exact (map_nth snd l (a, b) i). Qed.
Lemma nth_map_nil {A B} (f : A -> B) (l : list (list A)) i : nth i (map (map f) l) [] = map f (nth i l []).
Proof. exact (map_nth (map f) l [] i). Qed.
Lemma camera_errors_nth k C W prs :
  camera_errors k C W prs =
  flat_map (fun i => map (seen_error k (iso_mul (iso_inv C) (iso_mul (nth i (map fst prs) iso_id) W))) (nth i (map snd prs) [])) (seq 0 (List.length prs)).
Proof.
  unfold camera_errors. rewrite <- (flat_map_nth _ prs (iso_id, [])). apply flat_map_ext_in'. intros i _.
  rewrite (nth_fst prs i iso_id []), (nth_snd prs i iso_id []). reflexivity.
Qed.
(** Memory with the identity in every block. *)
Definition still_mem : mem := fun _ i => pose_elem (poseEigenToCal iso_id) i.
Lemma still_rigid k : rigid (poseCalToEigen (read_pose still_mem k)).
Proof. rewrite (read_pose_elem _ _ (poseEigenToCal iso_id)) by reflexivity. rewrite (plain_stored iso_id) by exact (plain_id_tr vzero). exact rigid_id. Qed.
Lemma static_errors ks prs Cs W g gs l1 l2 (f : nat -> iso) : let p := SP ks (map (map fst) prs) (map (map snd) prs) g gs l1 l2 in
  List.length ks = List.length gs -> List.length prs = List.length gs -> List.length Cs = List.length gs ->
  (forall c, (c < List.length gs)%nat -> f c = nth c Cs iso_id) ->
  map (static_error p f W) (static_views p) =
  flat_map (fun x => camera_errors (fst (fst x)) (snd x) W (snd (fst x))) (combine (combine ks prs) Cs).
Proof.
  intros p L1 L2 L3 Hf. unfold static_views, views, camera_major. rewrite map_flat_map, flat_map_flat_map. cbn [sp_base_to_camera_guess p].
  rewrite <- (flat_map_nth _ (combine (combine ks prs) Cs) (intr0, [], iso_id)).
  rewrite !combine_length, L1, L2, L3, !Nat.min_id. apply flat_map_ext_in'. intros c Hc. apply in_seq in Hc.
  rewrite flat_map_map. rewrite !combine_nth by (rewrite ?combine_length; lia). cbn [fst snd]. rewrite camera_errors_nth.
  cbn [sp_wrist_poses sp_image_observations p].
  rewrite !nth_map_nil, map_length. apply flat_map_ext_in'. intros i _. rewrite map_map. apply map_ext. intros x.
  unfold static_error. cbn [sp_wrist_poses sp_intr p].
  rewrite nth_map_nil, Hf by lia. reflexivity.
Qed.

Section Tools.
  Context {image features : Type} (v : vision image features)
          (draw : image -> list vec2 -> res image) (display : image -> res unit)
          (umask : nat -> nat -> nat) (runs : nat -> block_solver).
  Notation found_as := (CorrDataSpec.found_as (find v) (none v) (create v) (show_features v) true).
  Notation found := (CorrDataSpec.found (find v) (none v) (create v) (show_features v) true).

  Lemma shown_iff p cs : sees_shown v p cs <-> found_as (fst p) cs.
  Proof.
    split.
    - intros (f & A & B & C & D). exists f. repeat split; auto.
    - intros (f & A & B & C & D). exists f. repeat split; auto.
  Qed.
  Lemma shown_unique (p : image * iso) cs cs' : sees_shown v p cs -> sees_shown v p cs' -> cs = cs'.
  Proof. intros (f & A & _ & _ & B) (f' & A' & _ & _ & B'). congruence. Qed.

  Variables (rig : list (camera image)) (n : nat).
  Hypotheses (Hv : orderly v) (Hr : rig <> []) (He : even rig n).
  Notation data := (map (fun c => data_of (pics c)) rig).

  Lemma data_even s : In s data -> List.length (ds_images s) = n.
  Proof. intros H. apply in_map_iff in H. destruct H as (c & <- & Hc). cbn. rewrite map_length. apply He, Hc. Qed.
  Lemma data_taken c i p cam : nth_error rig c = Some cam -> nth_error (pics cam) i = Some p -> taken data c i (fst p).
  Proof.
    intros Hc Hi. exists (data_of (pics cam)). split; [ rewrite nth_error_map, Hc; reflexivity | ].
    cbn. rewrite nth_error_map, Hi. reflexivity.
  Qed.
  (** The correspondences of all images. *)
  Lemma corr_data_set : exists cd, corrDataSet v umask data = Ok cd /\ getCameraCount cd = List.length rig /\ getImageCount cd = n /\
    (forall c i cam p, nth_error rig c = Some cam -> nth_error (pics cam) i = Some p ->
       (forall cs, sees_shown v p cs -> foundCorrespondence cd c i = Ok true /\ getCorrespondenceSet cd c i = Ok cs) /\
       ((forall cs, ~ sees_shown v p cs) -> foundCorrespondence cd c i = Ok false)) /\
    (forall i, (i < n)%nat -> (Z.of_nat (List.length rig) < 2 ^ 32)%Z ->
       exists m, getImageCameraCount cd i = Ok m /\ count (fun cam => exists cs, sees_at v i cam cs) rig m).
  Proof.
    destruct (even_ok (find v) (none v) (create v) (show_features v) true Hv umask [] data n) as (cd & E & A & B & F & _ & G).
    { intros H. apply map_eq_nil in H. contradiction. }
    { exact data_even. }
    exists cd. split; [ exact E | ]. rewrite map_length in A, G. split; [ exact A | ]. split; [ exact B | ]. split.
    - intros c i cam p Hc Hi. destruct (F c i (fst p) (data_taken _ _ _ _ Hc Hi)) as (b & Fb & Iff & Get). split.
      + intros cs S. apply shown_iff in S. split; [ | apply Get, S ]. rewrite Fb. f_equal. apply Iff. exists cs. exact S.
      + intros N. rewrite Fb. f_equal. destruct b; [ | reflexivity ]. destruct (proj1 Iff eq_refl) as [cs S]. exfalso. apply (N cs), shown_iff, S.
    - intros i Hi HZ. destruct (G i Hi HZ) as (m & E1 & Cn). exists m. split; [ exact E1 | ].
      clear -Cn. remember data as l eqn:El. revert El. generalize rig as r0. induction Cn as [ | a l k Y Cn IH | a l k N Cn IH]; intros r0 El.
      + symmetry in El. apply map_eq_nil in El. subst. constructor.
      + destruct r0 as [ | cam r0]; [ discriminate | ]. cbn in El. injection El as -> ->. constructor; [ | apply IH; reflexivity ].
        destruct Y as (img & X & cs & S). cbn in X. rewrite nth_error_map in X. destruct (nth_error (pics cam) i) as [p | ] eqn:Ep; [ | discriminate ].
        injection X as <-. exists cs, p. split; [ exact Ep | apply shown_iff, S ].
      + destruct r0 as [ | cam r0]; [ discriminate | ]. cbn in El. injection El as -> ->. constructor 3; [ | apply IH; reflexivity ].
        intros (cs & p & Ep & S). apply N. exists (fst p). cbn. rewrite nth_error_map, Ep. split; [ reflexivity | ]. exists cs. apply shown_iff, S.
  Qed.
  Lemma count_all {A} (P : A -> Prop) l : count P l (List.length l) <-> forall a, In a l -> P a.
  Proof.
    split.
    - intros H. remember (List.length l) as k eqn:Ek. revert Ek. induction H as [ | a l k Y Cn IH | a l k N Cn IH]; intros Ek x Hx.
      + destruct Hx.
      + destruct Hx as [<- | Hx]; [ exact Y | ]. apply IH; [ cbn in Ek; lia | exact Hx ].
      + exfalso. apply count_le in Cn. cbn in Ek. lia.
    - induction l as [ | a l IH]; intros H; [ constructor | ]. cbn. constructor; [ apply H; left; reflexivity | apply IH; intros; apply H; right; assumption ].
  Qed.
  Lemma count_unique {A} (P : A -> Prop) l a b : count P l a -> count P l b -> a = b.
  Proof. intros H. revert b. induction H; intros b' H'; inversion H'; subst; auto; contradiction. Qed.

  (** ** Reprojections *)
  Lemma reproject_spec run T cams ks img css r :
    List.length cams = List.length ks -> List.length ks = List.length css ->
    reprojectCameras draw display run T cams ks img css = Ok r -> reprojected run T img (combine (combine ks cams) css) r.
  Proof.
    intros L1 L2. unfold reprojectCameras. destruct cams as [ | C cams]; [ discriminate | ]. destruct ks as [ | k ks]; [ discriminate | ].
    destruct css as [ | cs css]; [ discriminate | ]. cbn [idx nth_error bind].
    destruct (draw img _) as [bf | |]; cbn [bind]; try discriminate.
    destruct (optimizeMpnp run _) as [q | |] eqn:E; cbn [bind]; try discriminate.
    destruct (draw img _) as [af | |]; cbn [bind]; try discriminate.
    destruct (display bf); cbn [bind]; try discriminate. destruct (display af); cbn [bind]; try discriminate.
    intros H. injection H as <-. exists k, C, cs, (combine (combine ks cams) css). split; [ reflexivity | ].
    cbn [rj_image rj_camera_to_target rj_before rj_pnp rj_pnp_camera_to_target rj_after].
    cbn in L1, L2. assert (P : forall (f : correspondence vec2 -> vec3), flat_map (fun x : intrinsics * iso * list (correspondence vec2) => map f (snd x)) (combine (combine (k :: ks) (C :: cams)) (cs :: css))
      = flat_map (map f) (cs :: css)).
    { intros f. rewrite !flat_map_concat_map. f_equal. rewrite <- (map_map snd (map f)). f_equal.
      clear -L1 L2. assert (X : List.length (combine (k :: ks) (C :: cams)) = List.length (cs :: css)) by (rewrite combine_length; cbn; lia).
      revert X. generalize (combine (k :: ks) (C :: cams)) as a. generalize (cs :: css) as b.
      induction b as [ | y b IH]; intros [ | x a] X; cbn in *; try discriminate; [ reflexivity | ]. f_equal. apply IH. lia. }
    cbv zeta. rewrite (P in_target). split; [ reflexivity | ]. split; [ reflexivity | ]. split; [ reflexivity | ]. split.
    - cbn [combine map fst snd]. rewrite <- E. do 2 f_equal.
      + f_equal. clear -L1 L2. revert cams css L1 L2. induction ks as [ | x ks IH]; intros [ | y cams] [ | z css] L1 L2; cbn in *; try discriminate; [ reflexivity | ].
        f_equal. apply IH; lia.
      + f_equal. clear -L1 L2. revert cams css L1 L2. induction ks as [ | x ks IH]; intros [ | y cams] [ | z css] L1 L2; cbn in *; try discriminate; [ reflexivity | ].
        f_equal. apply IH; lia.
      + f_equal. clear -L1 L2. revert cams css L1 L2. induction ks as [ | x ks IH]; intros [ | y cams] [ | z css] L1 L2; cbn in *; try discriminate; [ reflexivity | ].
        f_equal. apply IH; lia.
    - split; reflexivity.
  Qed.

  (** ** multi_static_camera_extrinsic *)
  Lemma static_data : mapM (@staticData image) (map input rig) = Ok data.
  Proof. clear. induction rig as [ | c r IH]; [ reflexivity | ]. cbn [map mapM]. cbn [staticData input cam_data bind]. rewrite IH. reflexivity. Qed.
  Lemma camera_data : mapM (@cameraData image) (map input rig) = Ok data.
  Proof. clear. induction rig as [ | c r IH]; [ reflexivity | ]. cbn [map mapM]. cbn [cameraData input cam_data bind]. rewrite IH. reflexivity. Qed.
  Lemma intr_input : map cam_intr (map (@input image) rig) = map intr_of rig.
  Proof. rewrite map_map. reflexivity. Qed.
  Lemma pose_input : map cam_pose (map (@input image) rig) = map pose_of rig.
  Proof. rewrite map_map. reflexivity. Qed.

  Definition of_sel (sel : list ((image * iso) * list (correspondence vec2))) : list iso * list (list (correspondence vec2)) :=
    (map fst (at_poses sel), map snd (at_poses sel)).
  Lemma static_observations cd c cam : corrDataSet v umask data = Ok cd -> nth_error rig c = Some cam ->
    exists sel, chosen (sees_shown v) (pics cam) sel /\ staticObservations data cd c = Ok (of_sel sel).
  Proof.
    intros Ecd Hc. destruct corr_data_set as (cd' & E & A & B & F & _). rewrite E in Ecd. injection Ecd as ->.
    unfold staticObservations. rewrite B.
    destruct (foldM_seq_inv (fun i st => exists sel, chosen (sees_shown v) (firstn i (pics cam)) sel /\ st = of_sel sel)
      (fun st i =>
        let '(wrist_poses, image_observations) := st in
        do found <- foundCorrespondence cd c i;
        if found then
          do data_set <- idx data c;
          do tool_pose <- idx (ds_tool_poses data_set) i;
          do cs <- getCorrespondenceSet cd c i;
          Ok (wrist_poses ++ [tool_pose], image_observations ++ [cs])%list
        else Ok st) 0 n ([], [])) as (st & Est & (sel & Ch & ->)).
    - exists []. split; [ constructor | reflexivity ].
    - intros i st Hi (sel & Ch & ->). cbn in Hi.
      assert (L : (i < List.length (pics cam))%nat) by (rewrite He by (apply (nth_error_In _ _ Hc)); lia).
      destruct (nth_error (pics cam) i) as [p | ] eqn:Ep; [ | apply nth_error_None in Ep; lia ].
      assert (Es : firstn (S i) (pics cam) = firstn i (pics cam) ++ [p]).
      { clear -Ep. revert i Ep. induction (pics cam) as [ | x l IH]; intros [ | i] Ep; cbn in *; try discriminate; [ congruence | ]. rewrite (IH i Ep). reflexivity. }
      rewrite Es. destruct (F c i cam p Hc Ep) as [Yes No]. unfold of_sel at 1.
      destruct (Classical_Prop.classic (exists cs, sees_shown v p cs)) as [[cs S] | N].
      + destruct (Yes cs S) as [-> ->]. cbn [bind]. rewrite (idx_some data c (data_of (pics cam))) by (rewrite nth_error_map, Hc; reflexivity). cbn [bind].
        cbn [data_of ds_tool_poses]. rewrite (idx_some (map snd (pics cam)) i (snd p)) by (rewrite nth_error_map, Ep; reflexivity). cbn [bind].
        eexists. split; [ reflexivity | ]. exists (sel ++ [(p, cs)]). split; [ apply chosen_snoc; assumption | ].
        unfold of_sel, at_poses. rewrite !map_app. reflexivity.
      + rewrite No by (intros cs S; apply N; exists cs; exact S). cbn [bind]. eexists. split; [ reflexivity | ]. exists sel. split; [ | reflexivity ].
        apply chosen_snoc_no; [ exact Ch | ]. intros cs S. apply N. exists cs. exact S.
    - exists sel. split; [ | exact Est ]. cbn in Ch. rewrite <- (firstn_all (pics cam)), He by (apply (nth_error_In _ _ Hc)). exact Ch.
  Qed.
  Lemma static_all cd obs : corrDataSet v umask data = Ok cd ->
    mapM (staticObservations data cd) (seq 0 (getCameraCount cd)) = Ok obs ->
    exists sels, Forall2 (fun cam sel => chosen (sees_shown v) (pics cam) sel) rig sels /\ obs = map of_sel sels.
  Proof.
    intros E M. pose proof corr_data_set as (cd' & E' & A & _). rewrite E in E'. injection E' as <-. rewrite A in M.
    apply mapM_Forall2 in M.
    assert (X : Forall2 (fun cam o => exists sel, chosen (sees_shown v) (pics cam) sel /\ o = of_sel sel) rig obs).
    { refine (Forall2_seq _ _ _ _ _ M). intros i cam o Hi Ho. cbn in Ho.
      destruct (static_observations cd i cam E Hi) as (sel & Ch & Es). exists sel. split; [ exact Ch | congruence ]. }
    clear -X. induction X as [ | cam o r os (sel & Ch & ->) X (sels & F & ->)]; [ exists []; split; [ constructor | reflexivity ] | ].
    exists (sel :: sels). split; [ constructor; assumption | reflexivity ].
  Qed.

  Notation tool := (multiStaticTool v draw display umask runs).
  Lemma static_stages u solve cov W0 r printed shown : tool u solve cov W0 (map input rig) = Ok (r, printed, shown) ->
    exists cd sels, corrDataSet v umask data = Ok cd /\ Forall2 (fun cam sel => chosen (sees_shown v) (pics cam) sel) rig sels /\
      optimizeStatic u solve cov (SP (map intr_of rig) (map (map fst) (map at_poses sels)) (map (map snd) (map at_poses sels)) W0 (map pose_of rig)
        "wrist_to_target" "base_to_camera") = Ok r /\
      printedCameras (sr_base_to_camera r) (List.length rig) = Ok printed /\
      staticReprojections draw display runs data cd r (map intr_of rig) (List.length rig) = Ok shown.
  Proof.
    unfold multiStaticTool. rewrite static_data, intr_input, pose_input, !map_length. cbn [bind].
    destruct (corrDataSet v umask data) as [cd | |] eqn:Ecd; cbn [bind]; try discriminate.
    destruct (mapM (staticObservations data cd) _) as [obs | |] eqn:Eo; cbn [bind]; try discriminate.
    destruct (static_all cd obs Ecd Eo) as (sels & Ch & ->).
    destruct (optimizeStatic _ _ _ _) as [r' | |] eqn:Er; cbn [bind]; try discriminate.
    destruct (printedCameras _ _) as [pr | |] eqn:Ep; cbn [bind]; try discriminate.
    destruct (staticReprojections _ _ _ _ _ _ _ _) as [sh | |] eqn:Es; cbn [bind]; try discriminate.
    intros H. injection H as -> -> ->. exists cd, sels. repeat split; auto. rewrite !map_map in Er |- *. exact Er.
  Qed.
  Lemma sels_len (P : camera image -> list ((image * iso) * list (correspondence vec2)) -> Prop) sels : Forall2 P rig sels -> List.length sels = List.length rig.
  Proof. intros H. symmetry. exact (Forall2_len _ _ _ H). Qed.
  Lemma static_calibrates u solve cov W0 r printed shown :
    (forall cam p, In cam rig -> In p (pics cam) -> plain_pose (snd p)) ->
    tool u solve cov W0 (map input rig) = Ok (r, printed, shown) ->
    exists sels blocks m0 m s, Forall2 (fun cam sel => chosen (sees_shown v) (pics cam) sel) rig sels /\
      (forall m, (forall c, (c < List.length rig)%nat -> rigid (poseCalToEigen (read_pose m c))) ->
       map (fun b => rb_eval b m) blocks =
       flat_map (fun x => camera_errors (fst (fst x)) (snd x) (poseCalToEigen (read_pose m (List.length rig))) (snd (fst x)))
         (combine (combine (map intr_of rig) (map at_poses sels)) (map (fun c => iso_inv (poseCalToEigen (read_pose m c))) (seq 0 (List.length rig))))) /\
      solve blocks m0 = (m, s) /\
      read_pose m0 (List.length rig) = poseEigenToCal W0 /\
      (forall c cam, nth_error rig c = Some cam -> read_pose m0 c = poseEigenToCal (iso_inv (pose_of cam))) /\
      sr_converged r = term_convergence s /\
      sr_wrist_to_target r = poseCalToEigen (read_pose m (List.length rig)) /\
      sr_base_to_camera r = map (fun c => iso_inv (poseCalToEigen (read_pose m c))) (seq 0 (List.length rig)) /\
      sr_initial_cost_per_obs r = initial_cost s / INR (2 * List.length blocks) /\
      sr_final_cost_per_obs r = final_cost s / INR (2 * List.length blocks).
  Proof.
    intros Pl T. destruct (static_stages _ _ _ _ _ _ _ T) as (cd & sels & _ & Ch & Er & _ & _).
    set (p := SP _ _ _ _ _ _ _) in Er. pose proof (sels_len _ _ Ch) as Ls.
    assert (Sz : static_sizes p).
    { unfold static_sizes, p. cbn [sp_base_to_camera_guess sp_intr sp_wrist_poses sp_image_observations]. rewrite !map_length. repeat split; auto.
      intros c _. rewrite !nth_map_nil, !map_length. reflexivity. }
    assert (Pw : plain_wrists p).
    { intros c W HW. unfold p in HW. cbn [sp_wrist_poses] in HW. rewrite map_map in HW.
      destruct (nth_error sels c) as [sel | ] eqn:Hs.
      - rewrite (nth_of_error _ _ (map fst (at_poses sel))) in HW by (rewrite nth_error_map, Hs; reflexivity).
        assert (Hc : exists cam, nth_error rig c = Some cam).
        { destruct (nth_error rig c) eqn:E; [ eauto | ]. apply nth_error_None in E. assert (c < List.length sels)%nat by (apply nth_error_Some; congruence). lia. }
        destruct Hc as [cam Hc]. destruct (Forall2_nth_l _ _ _ _ _ Ch Hc) as (sel' & Hs' & Chs). rewrite Hs in Hs'. injection Hs' as <-.
        unfold at_poses in HW. rewrite map_map in HW. apply in_map_iff in HW. destruct HW as ([q cs] & <- & Hq). cbn [fst snd].
        apply (Pl cam); [ apply (nth_error_In _ _ Hc) | ]. apply (chosen_in _ _ _ Chs _ _ Hq).
      - rewrite nth_overflow in HW by (rewrite map_length; apply nth_error_None, Hs). destruct HW. }
    destruct (static_right p Sz Pw) as (blocks & Hb & Hs). destruct (Hs _ _ _ _ Er) as (m & s & Es & Cv & Wt & Ln & Cm & Ci & Cf).
    assert (Ng : List.length (sp_base_to_camera_guess p) = List.length rig) by (unfold p; cbn; apply map_length). rewrite Ng in *.
    assert (Cr : sr_base_to_camera r = map (fun c => iso_inv (poseCalToEigen (read_pose m c))) (seq 0 (List.length rig))).
    { apply nth_ext with (d := iso_id) (d' := iso_id); [ rewrite map_length, seq_length; exact Ln | ]. intros c Hc.
      pose proof (nth_error_nth' _ iso_id Hc) as E. rewrite (Cm _ _ E).
      symmetry. rewrite Ln in Hc. apply nth_of_error. rewrite nth_error_map, (nth_error_nth' _ 0%nat) by (rewrite seq_length; exact Hc).
      rewrite seq_nth by exact Hc. reflexivity. }
    assert (Lb : List.length blocks = List.length (static_views p)).
    { erewrite <- map_length, (Hb still_mem), map_length; [ reflexivity | intros; apply still_rigid ]. }
    rewrite <- Lb in Ci, Cf.
    exists sels, blocks, (static_start p), m, s. split; [ exact Ch | ]. split.
    { clear m Es Wt Cm Cr. intros m Rg. rewrite (Hb m Rg). unfold p. apply static_errors.
      - rewrite !map_length. reflexivity.
      - rewrite !map_length. exact Ls.
      - rewrite !map_length, seq_length. reflexivity.
      - rewrite map_length. intros c Hc. symmetry. apply nth_of_error. rewrite nth_error_map, (nth_error_nth' _ 0%nat) by (rewrite seq_length; exact Hc).
        rewrite seq_nth by exact Hc. reflexivity. }
    split; [ exact Es | ]. split.
    { pose proof (static_start_wrist p) as E. unfold static_wrist_key in E. rewrite Ng in E. exact E. }
    split.
    { intros c cam Hc. apply static_start_camera. unfold p. cbn [sp_base_to_camera_guess]. rewrite nth_error_map, Hc. reflexivity. }
    auto 9.
  Qed.
  Lemma printed_cameras Cs m printed : List.length Cs = m -> (0 < m)%nat -> printedCameras Cs m = Ok printed ->
    exists C0 rest, Cs = C0 :: rest /\ printed = map (fun C => (C, iso_mul (iso_inv C0) C)) Cs.
  Proof.
    intros L P E. destruct Cs as [ | C0 rest]; [ cbn in L; lia | ]. exists C0, rest. split; [ reflexivity | ].
    unfold printedCameras in E. subst m. rewrite (mapM_ok _ (fun c => (nth c (C0 :: rest) iso_id, iso_mul (iso_inv C0) (nth c (C0 :: rest) iso_id)))) in E.
    - assert (E' := f_equal (fun r => match r with Ok x => x | _ => [] end) E). cbn beta iota in E'. rewrite <- E'.
      exact (map_nth_seq (fun C => (C, iso_mul (iso_inv C0) C)) (C0 :: rest) iso_id).
    - intros c Hc. apply in_seq in Hc. rewrite (idx_ok _ c iso_id) by lia. reflexivity.
  Qed.

  Lemma static_printed u solve cov W0 r printed shown : tool u solve cov W0 (map input rig) = Ok (r, printed, shown) ->
    exists C0 rest, sr_base_to_camera r = C0 :: rest /\ printed = map (fun C => (C, iso_mul (iso_inv C0) C)) (sr_base_to_camera r).
  Proof.
    intros T. destruct (static_stages _ _ _ _ _ _ _ T) as (cd & sels & Ecd & Ch & Er & Ep & _).
    apply (printed_cameras _ (List.length rig)); [ | clear -Hr; destruct rig; [ contradiction | cbn; lia ] | exact Ep ].
    unfold optimizeStatic in Er. destruct (static_blocks _) as [bl | |]; cbn [bind] in Er; try discriminate.
    destruct (solve bl _) as [m s]. destruct (computeCovariance _ _ _ _ _) as [c | |]; cbn [bind] in Er; try discriminate.
    injection Er as <-. cbn [sr_base_to_camera]. rewrite map_length, seq_length. cbn. apply map_length.
  Qed.

  (** The cameras that see the target in picture number i. *)
  Definition views_of (seen : list ((camera image * iso) * list (correspondence vec2))) : list (intrinsics * iso * list (correspondence vec2)) :=
    map (fun s => (intr_of (fst (fst s)), snd (fst s), snd s)) seen.
  Lemma static_seen cd Cs i : corrDataSet v umask data = Ok cd -> List.length Cs = List.length rig -> (i < n)%nat ->
    exists seen, seeing v rig Cs i seen /\
      exists img, staticSeen data cd Cs (map intr_of rig) (List.length rig) i =
        Ok (map (fun s => snd (fst s)) seen, map (fun s => intr_of (fst (fst s))) seen, map snd seen, img) /\
      (forall s rest, seen = s :: rest -> exists p, nth_error (pics (fst (fst s))) i = Some p /\ img = Some (fst p)).
  Proof.
    intros Ecd L Hi. destruct corr_data_set as (cd' & E & A & B & F & _). rewrite E in Ecd. injection Ecd as ->.
    unfold staticSeen.
    pose (inv := fun c (st : list iso * list intrinsics * list (list (correspondence vec2)) * option image) =>
      exists seen img, chosen (fun x => sees_at v i (fst x)) (firstn c (combine rig Cs)) seen /\
        st = (map (fun s => snd (fst s)) seen, map (fun s => intr_of (fst (fst s))) seen, map snd seen, img) /\
        (forall s rest, seen = s :: rest -> exists p, nth_error (pics (fst (fst s))) i = Some p /\ img = Some (fst p))).
    match goal with |- context [foldM ?f (seq 0 ?m) ?s] => destruct (foldM_seq_inv inv f 0 m s) as (st & Est & (seen & img & Ch & -> & Im)) end.
    - exists [], None. split; [ constructor | ]. split; [ reflexivity | ]. intros s rest H. discriminate.
    - intros c st Hc (seen & img & Ch & -> & Im). cbn in Hc.
      destruct (nth_error rig c) as [cam | ] eqn:Ec; [ | apply nth_error_None in Ec; lia ].
      destruct (nth_error Cs c) as [C | ] eqn:EC; [ | apply nth_error_None in EC; lia ].
      destruct (nth_error (pics cam) i) as [p | ] eqn:Ep; [ | apply nth_error_None in Ep; rewrite He in Ep by (apply (nth_error_In _ _ Ec)); lia ].
      assert (Es : firstn (S c) (combine rig Cs) = firstn c (combine rig Cs) ++ [(cam, C)]).
      { clear -Ec EC. revert Cs c Ec EC. induction rig as [ | x l IH]; intros [ | y Cs] [ | c] Ec EC; cbn in *; try discriminate; [ congruence | ]. rewrite (IH _ _ Ec EC). reflexivity. }
      unfold inv. rewrite Es. destruct (F c i cam p Ec Ep) as [Yes No].
      destruct (Classical_Prop.classic (exists cs, sees_shown v p cs)) as [[cs S] | N].
      + destruct (Yes cs S) as [-> ->]. cbn [bind]. rewrite (idx_some Cs c C EC). cbn [bind].
        rewrite (idx_some (map intr_of rig) c (intr_of cam)) by (rewrite nth_error_map, Ec; reflexivity). cbn [bind].
        destruct seen as [ | s0 seen].
        * cbn [map]. rewrite (idx_some data c (data_of (pics cam))) by (rewrite nth_error_map, Ec; reflexivity). cbn [bind data_of ds_images].
          rewrite (idx_some (map fst (pics cam)) i (fst p)) by (rewrite nth_error_map, Ep; reflexivity). cbn [bind].
          eexists. split; [ reflexivity | ]. exists [((cam, C), cs)], (Some (fst p)). split; [ apply (chosen_snoc _ _ _ _ [] Ch); exists p; split; assumption | ].
          split; [ reflexivity | ]. intros s rest H. injection H as <- <-. exists p. split; [ exact Ep | reflexivity ].
        * cbn [map bind]. eexists. split; [ reflexivity | ]. exists ((s0 :: seen) ++ [((cam, C), cs)]), img.
          split; [ apply chosen_snoc; [ exact Ch | exists p; split; assumption ] | ]. split; [ rewrite !map_app; reflexivity | ].
          intros s rest H. injection H as <- _. apply (Im s0 seen). reflexivity.
      + rewrite No by (intros cs S; apply N; exists cs; exact S). cbn [bind]. eexists. split; [ reflexivity | ]. exists seen, img. split; [ | split; [ reflexivity | exact Im ] ].
        apply chosen_snoc_no; [ exact Ch | ]. intros cs (p' & Ep' & S). cbn in Ep'. apply N. exists cs. congruence.
    - exists seen. split.
      + cbn in Ch. rewrite firstn_all2 in Ch by (rewrite combine_length; lia). exact Ch.
      + exists img. split; [ exact Est | exact Im ].
  Qed.
  Lemma seen_unique Cs i seen seen' : seeing v rig Cs i seen ->
    seeing v rig Cs i seen' -> seen' = seen.
  Proof.
    intros H H'. refine (chosen_unique _ _ _ _ H _ H'). intros a b b' (p & Ep & S) (p' & Ep' & S'). rewrite Ep in Ep'. injection Ep' as <-.
    exact (shown_unique _ _ _ S S').
  Qed.
  Lemma first_of (cam : camera image) i p : nth_error rig 0 = Some cam -> nth_error (pics cam) i = Some p -> first_pose rig i (snd p) /\ first_picture rig i (fst p).
  Proof. intros Hc Hp. split; exists cam, p; auto. Qed.
  Lemma data_first : exists cam, nth_error rig 0 = Some cam /\ idx data 0 = Ok (data_of (pics cam)) /\ List.length (pics cam) = n.
  Proof.
    destruct rig as [ | cam rest]; [ contradiction | ]. exists cam. split; [ reflexivity | ]. split; [ reflexivity | ]. apply He. left. reflexivity.
  Qed.
  (** The images seen by two cameras are shown. *)
  Lemma static_shows u solve cov W0 r printed shown : tool u solve cov W0 (map input rig) = Ok (r, printed, shown) ->
    exists sel, chosen (fun i seen => (2 <= List.length seen)%nat /\
        seeing v rig (sr_base_to_camera r) i seen) (seq 0 n) sel /\
      Forall2 (fun x y => fst y = fst x /\ exists T s rest p, first_pose rig (fst x) T /\ snd x = s :: rest /\
        nth_error (pics (fst (fst s))) (fst x) = Some p /\
        reprojected (runs (fst x)) (iso_mul T (sr_wrist_to_target r)) (fst p) (views_of (snd x)) (snd y)) sel shown.
  Proof.
    intros T. destruct (static_stages _ _ _ _ _ _ _ T) as (cd & sels & Ecd & Ch & Er & _ & Es).
    assert (Lr : List.length (sr_base_to_camera r) = List.length rig).
    { unfold optimizeStatic in Er. destruct (static_blocks _) as [bl | |]; cbn [bind] in Er; try discriminate.
      destruct (solve bl _) as [m s]. destruct (computeCovariance _ _ _ _ _) as [c | |]; cbn [bind] in Er; try discriminate.
      injection Er as <-. cbn [sr_base_to_camera]. rewrite map_length, seq_length. cbn. apply map_length. }
    unfold staticReprojections in Es. destruct data_first as (cam0 & H0 & E0 & L0). rewrite E0 in Es. cbn [bind] in Es.
    cbn [data_of ds_images ds_tool_poses] in Es. rewrite map_length, L0 in Es.
    apply (foldM_pairs _ (fun pre shown => exists sel, chosen (fun i seen => (2 <= List.length seen)%nat /\
        seeing v rig (sr_base_to_camera r) i seen) pre sel /\
      Forall2 (fun x y => fst y = fst x /\ exists T s rest p, first_pose rig (fst x) T /\ snd x = s :: rest /\
        nth_error (pics (fst (fst s))) (fst x) = Some p /\
        reprojected (runs (fst x)) (iso_mul T (sr_wrist_to_target r)) (fst p) (views_of (snd x)) (snd y)) sel shown)) in Es.
    - exact Es.
    - exists []. split; constructor.
    - intros pre i post sh sh' El (sel & Chs & F) St.
      assert (Hi : (i < n)%nat). { assert (In i (seq 0 n)) by (rewrite El; apply in_or_app; right; left; reflexivity). apply in_seq in H. lia. }
      destruct (nth_error (pics cam0) i) as [p0 | ] eqn:Ep0; [ | apply nth_error_None in Ep0; lia ].
      rewrite (idx_some (map snd (pics cam0)) i (snd p0)) in St by (rewrite nth_error_map, Ep0; reflexivity). cbn [bind] in St.
      destruct (static_seen cd (sr_base_to_camera r) i Ecd Lr Hi) as (seen & Cse & img & Ese & Im). rewrite Ese in St. cbn [bind] in St.
      rewrite map_length in St. destruct (Nat.leb_spec 2 (List.length seen)) as [Le | Le].
      + destruct seen as [ | s rest]; [ cbn in Le; lia | ]. destruct (Im s rest eq_refl) as (p & Ep & ->).
        destruct (reprojectCameras _ _ _ _ _ _ _ _) as [rj | |] eqn:Erj; cbn [bind] in St; try discriminate. injection St as <-.
        apply reproject_spec in Erj; [ | rewrite !map_length; reflexivity | rewrite !map_length; reflexivity ].
        exists (sel ++ [(i, s :: rest)]). split; [ apply chosen_snoc; [ exact Chs | split; assumption ] | ].
        apply Forall2_app; [ exact F | ]. constructor; [ | constructor ]. split; [ reflexivity | ].
        exists (snd p0), s, rest, p. split; [ apply (first_of cam0); assumption | ]. split; [ reflexivity | ]. split; [ exact Ep | ]. cbn [fst snd].
        replace (views_of (s :: rest)) with (combine (combine (map (fun s => intr_of (fst (fst s))) (s :: rest)) (map (fun s => snd (fst s)) (s :: rest))) (map snd (s :: rest))); [ exact Erj | ].
        clear. unfold views_of. generalize (s :: rest) as l. induction l as [ | a l IH]; [ reflexivity | ]. cbn. f_equal. exact IH.
      + injection St as <-. exists sel. split; [ | exact F ]. apply chosen_snoc_no; [ exact Chs | ]. intros seen' [Le' Ch']. rewrite (seen_unique _ _ _ _ Cse Ch') in Le'. lia.
  Qed.
End Tools.
