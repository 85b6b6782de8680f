(** Simulated targets, correspondences and hand-eye observations (Model/Simulation.v) *)
From Coq Require Import Reals ZArith List Lia Lra Psatz.
From Verif.Base Require Import Geom Outcome Matrix.
From Verif.Model Require Import Pose Solver HandEye Simulation.
From Verif.Spec Require Import PinHole Frames PnpSpec UniqueSpec TargetSpec SimulationSpec.
From Verif.Proofs Require Import GeomLemmas TargetProofs HandEyeProofs UniqueProofs.
Import ListNotations.
Local Open Scope R_scope.

Lemma fold_push {A B} (f : A -> B) l acc : fold_left (fun out a => out ++ [f a]) l acc = acc ++ map f l.
Proof.
  revert acc. induction l as [ | a r IH]; intros acc; cbn; [ rewrite app_nil_r; reflexivity | ].
  rewrite IH, <- app_assoc. reflexivity.
Qed.
Lemma fold_append {A B} (f : A -> list B) l acc : fold_left (fun out a => out ++ f a) l acc = acc ++ flat_map f l.
Proof.
  revert acc. induction l as [ | a r IH]; intros acc; cbn; [ rewrite app_nil_r; reflexivity | ].
  rewrite IH, <- app_assoc. reflexivity.
Qed.
Lemma fold_left_ext {A B} (f g : A -> B -> A) l a : (forall a b, f a b = g a b) -> fold_left f l a = fold_left g l a.
Proof. intros H. revert a. induction l as [ | b r IH]; intros a; cbn; [ reflexivity | ]. rewrite H. apply IH. Qed.
Lemma fold_layout {A} (f : nat -> nat -> A) r c s :
  fold_left (fun out i => fold_left (fun out j => out ++ [f i j]) (seq 0 c) out) (seq s r) [] =
  flat_map (fun i => map (f i) (seq 0 c)) (seq s r).
Proof.
  rewrite (fold_left_ext _ (fun out i => out ++ map (f i) (seq 0 c))) by (intros; apply fold_push).
  rewrite fold_append. reflexivity.
Qed.

(** ** The target *)

Lemma u32_small z : (0 <= z < 2 ^ 32)%Z -> u32 z = z.
Proof. intros H. unfold u32. apply Z.mod_small. exact H. Qed.

Lemma target_points rows cols spacing : (Z.of_nat rows + 1 < 2 ^ 32)%Z ->
  sim_points (mk_target rows cols spacing) = layout rows cols (grid_point rows spacing).
Proof.
  intros H. unfold mk_target, sim_points. rewrite (u32_small (Z.of_nat rows + 1)) by lia.
  replace (Z.to_nat (Z.of_nat rows + 1) - 1)%nat with rows by lia.
  rewrite (fold_layout (fun i j => V3 (INR j * spacing) (IZR (u32 (Z.of_nat rows - Z.of_nat i)) * spacing) 0)).
  unfold layout. rewrite <- seq_shift, flat_map_concat_map, flat_map_concat_map, map_map. f_equal.
  apply map_ext_in. intros k Hk. apply in_seq in Hk. apply map_ext. intros j. unfold grid_point. f_equal. f_equal.
  rewrite u32_small by lia. rewrite INR_IZR_INZ. f_equal. lia.
Qed.
Lemma target_origin rows cols spacing :
  (0 < rows)%nat -> (0 < cols)%nat -> (Z.of_nat rows + 1 < 2 ^ 32)%Z -> (Z.of_nat rows * Z.of_nat cols < 2 ^ 32)%Z ->
  sim_origin_idx (mk_target rows cols spacing) = Z.of_nat ((rows - 1) * cols) /\
  nth_error (sim_points (mk_target rows cols spacing)) ((rows - 1) * cols) = Some vzero.
Proof.
  intros Hr Hc Hb Hp. split.
  - unfold mk_target, sim_origin_idx. rewrite (u32_small (Z.of_nat rows - 1)) by lia.
    rewrite u32_small by nia. rewrite Nat2Z.inj_mul, Nat2Z.inj_sub by lia. reflexivity.
  - rewrite target_points by exact Hb. replace ((rows - 1) * cols)%nat with ((rows - 1) * cols + 0)%nat by lia.
    rewrite nth_layout by lia. unfold grid_point. replace (rows - 1 - (rows - 1))%nat with 0%nat by lia. cbn [INR].
    rewrite !Rmult_0_l. reflexivity.
Qed.
Lemma target_center rows cols spacing : (0 < rows)%nat -> (0 < cols)%nat -> (Z.of_nat rows < 2 ^ 32)%Z -> (Z.of_nat cols < 2 ^ 32)%Z ->
  sim_center (mk_target rows cols spacing) = V3 (INR (rows - 1) * spacing / 2) (INR (cols - 1) * spacing / 2) 0.
Proof.
  intros Hr Hc Br Bc. unfold mk_target, sim_center. rewrite !u32_small by lia. rewrite !INR_IZR_INZ.
  rewrite !Nat2Z.inj_sub by lia. reflexivity.
Qed.
(** Where the centre of a grid is *)
Lemma grid_centre rows cols spacing c : (0 < rows)%nat -> (0 < cols)%nat -> spacing <> 0 ->
  (centre c (layout rows cols (grid_point rows spacing)) <->
   c = V3 (INR (cols - 1) * spacing / 2) (INR (rows - 1) * spacing / 2) 0).
Proof.
  intros Hr Hc N. split.
  - intros C.
    assert (In (grid_point rows spacing (rows - 1) 0) (layout rows cols (grid_point rows spacing))) as H0
      by (apply in_layout; exists (rows - 1)%nat, 0%nat; repeat split; lia).
    assert (In (grid_point rows spacing 0 (cols - 1)) (layout rows cols (grid_point rows spacing))) as H1
      by (apply in_layout; exists 0%nat, (cols - 1)%nat; repeat split; lia).
    apply C in H0, H1. apply in_layout in H0, H1. destruct H0 as (k & j & Hk & Hj & E0), H1 as (k' & j' & Hk' & Hj' & E1).
    pose proof (f_equal vx E0) as X0. pose proof (f_equal vx E1) as X1. pose proof (f_equal vy E0) as Y0. pose proof (f_equal vy E1) as Y1.
    pose proof (f_equal vz E0) as Z0. clear E0 E1. cbn [grid_point vsub vscale vx vy vz] in *.
    replace (rows - 1 - (rows - 1))%nat with 0%nat in Y0 by lia. rewrite Nat.sub_0_r in Y1. cbn [INR] in *.
    assert (j = cols - 1)%nat as ->.
    { assert (INR j * spacing = INR (j' + (cols - 1)) * spacing) as E by (rewrite plus_INR; lra).
      apply Rmult_eq_reg_r in E; [ | exact N ]. apply INR_eq in E. lia. }
    assert (rows - 1 - k = rows - 1)%nat as E.
    { assert (INR (rows - 1 - k) * spacing = INR (rows - 1 - k' + (rows - 1)) * spacing) as E by (rewrite plus_INR; lra).
      apply Rmult_eq_reg_r in E; [ | exact N ]. apply INR_eq in E. lia. }
    rewrite E in Y0. destruct c as [a b e]. cbn [vx vy vz] in *. f_equal; lra.
  - intros -> p Hp. apply in_layout in Hp. destruct Hp as (k & j & Hk & Hj & ->). apply in_layout.
    exists (rows - 1 - k)%nat, (cols - 1 - j)%nat. split; [ lia | ]. split; [ lia | ]. unfold vsub, vscale, grid_point. cbn [vx vy vz].
    replace (rows - 1 - (rows - 1 - k))%nat with k by lia. f_equal.
    + rewrite (minus_INR (cols - 1) j) by lia. field.
    + rewrite (minus_INR (rows - 1) k) by lia. field.
    + field.
Qed.
Lemma target_center_iff rows cols spacing :
  (0 < rows)%nat -> (0 < cols)%nat -> (Z.of_nat rows + 1 < 2 ^ 32)%Z -> (Z.of_nat cols < 2 ^ 32)%Z -> spacing <> 0 ->
  (centre (sim_center (mk_target rows cols spacing)) (sim_points (mk_target rows cols spacing)) <-> rows = cols).
Proof.
  intros Hr Hc Br Bc N. rewrite target_points by exact Br. rewrite grid_centre by assumption. rewrite target_center by lia. split.
  - intros E. apply (f_equal vx) in E. cbn [vx] in E.
    assert (INR (rows - 1) * spacing = INR (cols - 1) * spacing) as E' by lra. apply Rmult_eq_reg_r in E'; [ | exact N ]. apply INR_eq in E'. lia.
  - intros ->. reflexivity.
Qed.
Lemma target_center_refuted :
  exists rows cols spacing, (0 < rows)%nat /\ (0 < cols)%nat /\ 0 < spacing /\
  ~ centre (sim_center (mk_target rows cols spacing)) (sim_points (mk_target rows cols spacing)).
Proof.
  exists 5%nat, 7%nat, 1. split; [ lia | ]. split; [ lia | ]. split; [ lra | ].
  rewrite target_center_iff; [ lia | lia | lia | reflexivity | reflexivity | lra ].
Qed.

(** ** Correspondences *)

Lemma project_pinhole k p : 0 < vz p -> projectPoint_arr k p = pinhole k p.
Proof. intros H. unfold projectPoint_arr, pinhole. destruct (Req_EM_T (vz p) 0); [ lra | reflexivity ]. Qed.
Lemma test_visible c p : 0 < vz p ->
  snd (projectAndTest p c) = pinhole (sim_intr c) p /\ (fst (projectAndTest p c) = true <-> visible c p).
Proof.
  intros H. unfold projectAndTest, visible. cbn [fst snd]. rewrite project_pinhole by exact H. split; [ reflexivity | ].
  generalize (pinhole (sim_intr c) p). intros q.
  destruct (Rlt_dec (px q) 0); [ cbn [negb]; split; [ discriminate | intros (? & [? ?] & [? ?]); exfalso; lra ] | ].
  destruct (Rlt_dec (IZR (sim_width c)) (px q)); [ cbn [negb]; split; [ discriminate | intros (? & [? ?] & [? ?]); exfalso; lra ] | ].
  destruct (Rlt_dec (py q) 0); [ cbn [negb]; split; [ discriminate | intros (? & [? ?] & [? ?]); exfalso; lra ] | ].
  destruct (Rlt_dec (IZR (sim_height c)) (py q)); [ cbn [negb]; split; [ discriminate | intros (? & [? ?] & [? ?]); exfalso; lra ] | ].
  cbn [negb]. split; [ intros _; split; [ exact H | split; split; lra ] | reflexivity ].
Qed.
Definition corr_step (c : sim_camera) (T : iso) (all : bool) (out : list (correspondence vec2)) (p : vec3) :=
  let q := iso_app T p in
  let '(inside, im) := projectAndTest q c in
  if Rlt_dec 0 (vz q)
  then if inside then Ok (out ++ [Corr im p]) else if all then Throw RuntimeError else Ok out
  else if all then Throw RuntimeError else Ok out.
Lemma corr_step_visible c T all out p : visible c (iso_app T p) ->
  corr_step c T all out p = Ok (out ++ [Corr (pinhole (sim_intr c) (iso_app T p)) p]).
Proof.
  intros V. pose proof V as V0. unfold corr_step. destruct V as [Z _]. pose proof (test_visible c _ Z) as [E1 E2].
  destruct (projectAndTest (iso_app T p) c) as [b q]. cbn [fst snd] in *. subst q.
  destruct (Rlt_dec 0 (vz (iso_app T p))); [ | contradiction ]. destruct b; [ reflexivity | ]. exfalso.
  apply E2 in V0. discriminate.
Qed.
Lemma corr_step_hidden c T all out p : ~ visible c (iso_app T p) ->
  corr_step c T all out p = if all then Throw RuntimeError else Ok out.
Proof.
  intros V. unfold corr_step. destruct (projectAndTest (iso_app T p) c) as [b q] eqn:E.
  destruct (Rlt_dec 0 (vz (iso_app T p))) as [Z | ]; [ | reflexivity ]. destruct b; [ | reflexivity ].
  exfalso. apply V. apply (test_visible c _ Z). rewrite E. reflexivity.
Qed.
Lemma visible_dec c p : {visible c p} + {~ visible c p}.
Proof.
  destruct (Rlt_dec 0 (vz p)) as [Z | Z].
  - destruct (fst (projectAndTest p c)) eqn:E.
    + left. apply test_visible; assumption.
    + right. intros V. apply test_visible in V; [ congruence | exact Z ].
  - right. intros [V _]. contradiction.
Qed.
Lemma seen_exists c T ps : exists cs, seen c T ps cs.
Proof.
  induction ps as [ | p ps [cs IH]]; [ exists []; constructor | ].
  destruct (visible_dec c (iso_app T p)); eexists; [ apply seen_visible | apply seen_not ]; eassumption.
Qed.
Lemma seen_unique c T ps cs cs' : seen c T ps cs -> seen c T ps cs' -> cs = cs'.
Proof.
  intros H. revert cs'. induction H; intros cs' H'; inversion H'; subst; try contradiction; f_equal; auto.
Qed.
Lemma corr_fold c T ps : forall out cs, seen c T ps cs -> foldM (corr_step c T false) ps out = Ok (out ++ cs).
Proof.
  induction ps as [ | p ps IH]; intros out cs H; inversion H; subst; cbn [foldM].
  - rewrite app_nil_r. reflexivity.
  - rewrite corr_step_visible by assumption. cbn [bind]. rewrite (IH _ _ H4). rewrite <- app_assoc. reflexivity.
  - rewrite corr_step_hidden by assumption. cbn [bind]. apply IH. assumption.
Qed.
Lemma corr_fold_all c T ps : forall out, (forall p, In p ps -> visible c (iso_app T p)) ->
  foldM (corr_step c T true) ps out = Ok (out ++ map (fun p => Corr (pinhole (sim_intr c) (iso_app T p)) p) ps).
Proof.
  induction ps as [ | p ps IH]; intros out H; cbn [foldM map].
  - rewrite app_nil_r. reflexivity.
  - rewrite corr_step_visible by (apply H; left; reflexivity). cbn [bind]. rewrite IH by (intros; apply H; right; assumption).
    rewrite <- app_assoc. reflexivity.
Qed.
Lemma corr_fold_missed c T ps : forall out, (exists p, In p ps /\ ~ visible c (iso_app T p)) ->
  foldM (corr_step c T true) ps out = Throw RuntimeError.
Proof.
  induction ps as [ | p ps IH]; intros out (q & Hq & Nq); [ destruct Hq | ]. cbn [foldM].
  destruct (visible_dec c (iso_app T p)) as [V | V].
  - rewrite corr_step_visible by exact V. cbn [bind]. apply IH. destruct Hq as [-> | Hq]; [ contradiction | exists q; split; assumption ].
  - rewrite corr_step_hidden by exact V. reflexivity.
Qed.
Lemma getCorr_fold cp tp c t all : getCorrespondences2D cp tp c t all =
  foldM (corr_step c (iso_mul (iso_inv cp) tp) all) (sim_points t) [].
Proof. reflexivity. Qed.

Lemma correspondences_seen cp tp c t :
  exists cs, getCorrespondences2D cp tp c t false = Ok cs /\ seen c (iso_mul (iso_inv cp) tp) (sim_points t) cs.
Proof.
  destruct (seen_exists c (iso_mul (iso_inv cp) tp) (sim_points t)) as [cs H]. exists cs. split; [ | exact H ].
  rewrite getCorr_fold. rewrite (corr_fold _ _ _ _ _ H). reflexivity.
Qed.
Lemma correspondences_ok cp tp c t cs : getCorrespondences2D cp tp c t false = Ok cs ->
  seen c (iso_mul (iso_inv cp) tp) (sim_points t) cs.
Proof. destruct (correspondences_seen cp tp c t) as (cs' & E & H). rewrite E. intros [= <-]. exact H. Qed.
Lemma correspondences_all cp tp c t :
  (forall p, In p (sim_points t) -> visible c (iso_app (iso_mul (iso_inv cp) tp) p)) ->
  exists cs, getCorrespondences2D cp tp c t true = Ok cs /\ seen c (iso_mul (iso_inv cp) tp) (sim_points t) cs /\
             map in_target cs = sim_points t.
Proof.
  intros H. rewrite getCorr_fold, corr_fold_all by exact H. eexists. split; [ reflexivity | ]. cbn [app]. split.
  - revert H. generalize (sim_points t). intros ps. induction ps as [ | p ps IH]; intros H; cbn [map]; [ constructor | ].
    apply seen_visible; [ apply H; left; reflexivity | apply IH; intros; apply H; right; assumption ].
  - rewrite map_map. apply map_id.
Qed.
Lemma correspondences_missed cp tp c t :
  (exists p, In p (sim_points t) /\ ~ visible c (iso_app (iso_mul (iso_inv cp) tp) p)) ->
  getCorrespondences2D cp tp c t true = Throw RuntimeError.
Proof. intros H. rewrite getCorr_fold. apply corr_fold_missed. exact H. Qed.
Lemma correspondences_points cp tp t :
  getCorrespondences3D cp tp t = measured (iso_mul (iso_inv cp) tp) (sim_points t).
Proof. unfold getCorrespondences3D, measured. rewrite fold_push. reflexivity. Qed.

Lemma seen_in c T ps cs : seen c T ps cs -> forall x, In x cs <->
  exists p, In p ps /\ visible c (iso_app T p) /\ x = Corr (pinhole (sim_intr c) (iso_app T p)) p.
Proof.
  intros H. induction H as [ | p ps cs V H IH | p ps cs V H IH]; intros x.
  - cbn. split; [ intros [] | intros (? & [] & _) ].
  - cbn [In]. rewrite IH. split.
    + intros [ <- | (q & Hq & Vq & E)]; [ exists p; auto | exists q; auto ].
    + intros (q & [ <- | Hq] & Vq & E); [ left; symmetry; exact E | right; exists q; auto ].
  - rewrite IH. split.
    + intros (q & Hq & Vq & E). exists q. split; [ right; exact Hq | auto ].
    + intros (q & [ <- | Hq] & Vq & E); [ contradiction | exists q; auto ].
Qed.
Lemma seen_length c T ps cs : seen c T ps cs -> (length cs <= length ps)%nat.
Proof. induction 1; cbn; lia. Qed.
Lemma seen_perfect c T ps cs : seen c T ps cs -> (forall p, In p ps -> visible c (iso_app T p) -> in_front (iso_app T p)) ->
  perfect_image (sim_intr c) T cs.
Proof.
  intros H F x Hx. apply (seen_in _ _ _ _ H) in Hx. destruct Hx as (p & Hp & V & ->). cbn. split; [ apply F; assumption | reflexivity ].
Qed.
Lemma measured_perfect T ps : perfect_points T (measured T ps).
Proof. intros x Hx. apply in_map_iff in Hx. destruct Hx as (p & <- & _). reflexivity. Qed.

(** ** Observations for hand-eye calibration *)

Lemma sim_frames B T X P : rigid B -> rigid T -> rigid X ->
  let cm := iso_mul (iso_mul (iso_mul (iso_mul B iso_id) T) P) (iso_inv X) in
  iso_mul cm X = iso_mul (iso_mul B T) P /\
  iso_mul (iso_inv (iso_mul cm X)) (iso_mul (iso_mul B iso_id) T) = iso_inv P /\
  target_in_camera X cm iso_id (iso_mul B T) = iso_inv P.
Proof.
  intros HB HT HX cm. assert (iso_mul cm X = iso_mul (iso_mul B T) P) as E.
  { unfold cm. rewrite iso_mul_assoc, iso_inv_l by exact HX. rewrite !iso_mul_id_r. reflexivity. }
  assert (iso_mul (iso_inv (iso_mul (iso_mul B T) P)) (iso_mul B T) = iso_inv P) as E'.
  { rewrite iso_inv_mul by (apply rigid_mul; assumption). rewrite iso_mul_assoc, iso_inv_l by (apply rigid_mul; assumption).
    apply iso_mul_id_r. }
  split; [ exact E | ]. split.
  - rewrite E, iso_mul_id_r. exact E'.
  - unfold target_in_camera. rewrite E, iso_mul_id_l. exact E'.
Qed.
Definition sim_obs2 (cam : sim_camera) (tgt : sim_target) (T X B P : iso) : res (observation vec2) :=
  let cm := iso_mul (iso_mul (iso_mul (iso_mul B iso_id) T) P) (iso_inv X) in
  do cs <- getCorrespondences2D (iso_mul cm X) (iso_mul (iso_mul B iso_id) T) cam tgt false;
  Ok (Obs cs cm iso_id).
Lemma create2_mapM cam tgt gens T X B :
  createObservations2D cam tgt gens T X B = mapM (sim_obs2 cam tgt T X B) (proposals gens T).
Proof.
  unfold createObservations2D, proposals. rewrite fold_append. cbn [app].
  transitivity (foldM (fun s a => do b <- sim_obs2 cam tgt T X B a; Ok (s ++ [b])) (flat_map (fun g => g T) gens) []).
  - apply foldM_ext. intros s P _. unfold sim_obs2.
    match goal with |- context [getCorrespondences2D ?a ?b ?c ?d ?e] => destruct (getCorrespondences2D a b c d e) end; reflexivity.
  - rewrite foldM_push. destruct (mapM _ _); reflexivity.
Qed.
Notation obs_of2 cam tgt T X B P o :=
  (taken T X B P o /\ seen cam (iso_inv P) (sim_points tgt) (correspondence_set o)).
Lemma taken_pose {I} T X B P (o : observation I) : rigid B -> rigid T -> taken T X B P o ->
  target_in_camera X (to_camera_mount o) (to_target_mount o) (iso_mul B T) = iso_inv P.
Proof.
  intros HB HT [E1 E2]. unfold target_in_camera. rewrite E1, E2, iso_mul_id_l.
  rewrite iso_inv_mul by (apply rigid_mul; assumption). rewrite iso_mul_assoc, iso_inv_l by (apply rigid_mul; assumption).
  apply iso_mul_id_r.
Qed.
Lemma sim_obs2_ok cam tgt T X B P : rigid B -> rigid T -> rigid X ->
  exists o, sim_obs2 cam tgt T X B P = Ok o /\ obs_of2 cam tgt T X B P o.
Proof.
  intros HB HT HX. unfold sim_obs2. destruct (sim_frames B T X P HB HT HX) as (E1 & E2 & E3).
  match goal with |- context [getCorrespondences2D ?a ?b ?c ?d ?e] => destruct (correspondences_seen a b c d) as (cs & E & H) end.
  rewrite E. cbn [bind]. eexists. split; [ reflexivity | ]. unfold taken. cbn [to_target_mount to_camera_mount correspondence_set].
  rewrite E2 in H. auto.
Qed.
Lemma create2_ok cam tgt gens T X B : rigid B -> rigid T -> rigid X ->
  exists os, createObservations2D cam tgt gens T X B = Ok os /\
             Forall2 (fun P o => obs_of2 cam tgt T X B P o) (proposals gens T) os.
Proof.
  intros HB HT HX. rewrite create2_mapM. induction (proposals gens T) as [ | P l (os & E & F)]; cbn [mapM]; [ exists []; split; [ reflexivity | constructor ] | ].
  destruct (sim_obs2_ok cam tgt T X B P HB HT HX) as (o & Eo & Ho). exists (o :: os). rewrite Eo. cbn [bind]. rewrite E. cbn [bind].
  split; [ reflexivity | constructor; assumption ].
Qed.
Notation obs_of3 tgt T X B P o :=
  (taken T X B P o /\ correspondence_set o = measured (iso_inv P) (sim_points tgt)).
Lemma create3_ok tgt gens T X B : rigid B -> rigid T -> rigid X ->
  Forall2 (fun P o => obs_of3 tgt T X B P o) (proposals gens T) (createObservations3D tgt gens T X B).
Proof.
  intros HB HT HX.
  assert (createObservations3D tgt gens T X B = map (fun P =>
     let cm := iso_mul (iso_mul (iso_mul (iso_mul B iso_id) T) P) (iso_inv X) in
     Obs (getCorrespondences3D (iso_mul cm X) (iso_mul (iso_mul B iso_id) T) tgt) cm iso_id) (proposals gens T)) as ->.
  { unfold createObservations3D, proposals. etransitivity; [ apply fold_push | ]. rewrite fold_append. reflexivity. }
  induction (proposals gens T) as [ | P l IH]; cbn [map]; constructor; [ | exact IH ].
  destruct (sim_frames B T X P HB HT HX) as (E1 & E2 & E3). unfold taken. cbn [to_target_mount to_camera_mount correspondence_set].
  rewrite correspondences_points, E2. auto.
Qed.
