(** C118, C119: the ends of the check tools. *)
From Coq Require Import Reals Lra Lia Arith Ascii String List.
From Coq Require Import List.
From Verif.Base Require Import Geom Outcome Matrix.
From Verif.Model Require Import Pose Pnp HandEye IntrinsicValidation NoiseQualification DataSet ExampleTools CovReport ParamText PrintText CheckText.
From Verif.Proofs Require Import GeomLemmas RotLemmas PnpProofs NoiseProofs IntrinsicValidationProofs LoopProofs ScenesProofs ParamTextProofs TextProofs PrintTextProofs NearChecks.
From Verif.Proofs Require HandEyeToolProofs.
From Verif.Spec Require Import PinHole StatSpec ValidationSpec ToolSpec UniqueSpec TextSpec PrintTextSpec CheckSpec MessageSpec.
Import ListNotations.
Local Open Scope R_scope.

(** ** The noise tool *)
Lemma average_same l x : l <> [] -> (forall y, In y l -> y = x) -> average l = x /\ std_dev l = 0.
Proof.
  intros N H. assert (X : forall y, In y l -> Rabs (y - x) <= 0) by (intros y Hy; rewrite (H y Hy), Rminus_eq_0, Rabs_R0; apply Rle_refl).
  pose proof (average_near l x 0 N X) as A. pose proof (std_near l x 0 N (Rle_refl 0) X) as B. split; [ apply abs_inv in A; lra | ].
  assert (0 <= std_dev l) by (unfold std_dev; apply sqrt_pos). lra.
Qed.
Lemma filter_shorter {A} (f : A -> bool) l : (List.length (filter f l) <= List.length l)%nat.
Proof. induction l as [|a l IH]; [ apply le_n | ]. cbn. destruct (f a); cbn; lia. Qed.
Lemma noise_tool_result {image features} (v : vision image features) svd run read k g names s :
  noiseTool v svd (fun _ => run) read k g names = Ok s ->
  (forall ps, noiseProblems v read k g names = Ok ps -> right_for svd (fun _ p => optimizePnP (run_u run) (run_solve run) (run_cov run) p) ps) ->
  exists first rest cs r, names = first :: rest /\ rest <> [] /\ sees_shown v (read first, iso_id) cs /\
    optimizePnP (run_u run) (run_solve run) (run_cov run) (PnP2 k cs g default_pnp_label) = Ok r /\ pnp_converged r = true /\
    ps_mean (ns_p_stat s) = tr (pnp_camera_to_target r) /\ same_rotation (quat_of_mat (lin (pnp_camera_to_target r))) (qs_mean (ns_q_stat s)) /\
    ps_stdev (ns_p_stat s) = vzero /\ qs_stdev (ns_q_stat s) = 0.
Proof.
  intros E D. unfold noiseTool in E. destruct (noiseProblems v read k g names) as [ps| |] eqn:En; cbn [bind] in E; try discriminate.
  specialize (D ps eq_refl). destruct (qualify_spec svd _ ps s E) as (rs & L & Hrs & H2 & Hm & Hs & Hq). cbv beta in Hrs. specialize (D rs (conj L Hrs)).
  destruct names as [|first rest].
  { injection En as <-. destruct rs; [ cbn in H2; lia | discriminate ]. }
  destruct (noise_first v read k g first rest ps En) as [(cs & Sh & Ep)|[_ Ep]]; subst ps.
  2:{ destruct rs; [ cbn in H2; lia | discriminate ]. }
  assert (Sol : forall r r', In r rs -> In r' rs -> r = r').
  { assert (Any : forall r, In r rs -> optimizePnP (run_u run) (run_solve run) (run_cov run) (PnP2 k cs g default_pnp_label) = Ok r).
    { intros r Hr. apply In_nth_error in Hr as [i Hi]. destruct (nth_other _ rs i r L Hi) as [p Hp].
      rewrite <- (Hrs i p r Hp Hi). f_equal. apply nth_error_In in Hp. apply in_map_iff in Hp as (n & <- & _). reflexivity. }
    intros r r' Hr Hr'. apply Any in Hr, Hr'. congruence. }
  assert (Lr : (2 <= List.length rs)%nat). { unfold solutions in H2. rewrite map_length in H2. pose proof (filter_shorter pnp_converged rs). lia. }
  destruct (solutions rs) as [|T sol] eqn:Es; [ cbn in H2; lia | ].
  assert (HT : In T (solutions rs)) by (rewrite Es; left; reflexivity).
  apply solution_in in HT as (i & r & Hi & C & ->).
  assert (All : forall T', In T' (pnp_camera_to_target r :: sol) -> T' = pnp_camera_to_target r).
  { rewrite <- Es. intros T' HT'. apply solution_in in HT' as (j & r' & Hj & _ & ->). rewrite (Sol r' r (nth_error_In _ _ Hj) (nth_error_In _ _ Hi)). reflexivity. }
  destruct (nth_other _ rs i r L Hi) as [p Hp]. pose proof (Hrs i p r Hp Hi) as Er. apply nth_error_In in Hp. apply in_map_iff in Hp as (n & <- & _).
  exists first, rest, cs, r. split; [ reflexivity | ]. split; [ intros ->; cbn in L; lia | ]. split; [ exact Sh | ]. split; [ exact Er | ]. split; [ exact C | ].
  rewrite Hm, Hs.
  assert (A : forall f : vec3 -> R, average (map (fun T => f (tr T)) (pnp_camera_to_target r :: sol)) = f (tr (pnp_camera_to_target r)) /\
    std_dev (map (fun T => f (tr T)) (pnp_camera_to_target r :: sol)) = 0).
  { intros f. apply average_same; [ discriminate | ]. intros y Hy. apply in_map_iff in Hy as (T' & <- & HT'). rewrite (All T' HT'). reflexivity. }
  destruct (A vx) as [-> ->]. destruct (A vy) as [-> ->]. destruct (A vz) as [-> ->].
  split; [ destruct (tr (pnp_camera_to_target r)); reflexivity | ].
  assert (RT : rigid (pnp_camera_to_target r)). { destruct (pnp_result2 (PnP2 k cs g default_pnp_label)) as (b & _ & Y). exact (proj1 (Y _ _ _ _ Er)). }
  unfold orientations in D. rewrite Es in D.
  destruct (stats_of_equal svd (map (fun T => quat_of_mat (lin T)) (pnp_camera_to_target r :: sol)) (quat_of_mat (lin (pnp_camera_to_target r)))) as (m & Sm & Em).
  { exact D. } { rewrite map_length. exact H2. } { apply quat_of_mat_unit, RT. }
  { apply Forall_forall. intros q Hin. apply in_map_iff in Hin as (T' & <- & HT'). rewrite (All T' HT'). left. reflexivity. }
  rewrite Em in Hq. injection Hq as <-. cbn [qs_mean qs_stdev]. split; [ exact Sm | split; reflexivity ].
Qed.

(** ** Messages *)
Local Open Scope string_scope.
Ltac plain := repeat first [ apply one_line_app | apply streamed_line | (cbn; repeat split; discriminate) ].
Lemma mean_says heading unit r1 r2 : one_line heading -> one_line unit -> (Rabs r1 <= 2 ^ 1000)%R -> (Rabs r2 <= 2 ^ 1000)%R ->
  says_mean heading unit (heading ++ newline ++ ("Mean (" ++ unit ++ "): " ++ stream6 r1) ++ newline ++ "Std. Dev. (" ++ unit ++ "): " ++ stream6 r2) r1 r2.
Proof.
  intros H1 H2 B1 B2. exists (stream6 r1), (stream6 r2). split; [ | split; apply streamed_shows; try lia; assumption ].
  rewrite lines_line by exact H1. rewrite lines_line.
  - rewrite lines_one; [ reflexivity | ]. apply one_line_app; [ cbn; repeat split; discriminate | ]. apply one_line_app; [ exact H2 | plain ].
  - apply one_line_app; [ cbn; repeat split; discriminate | ]. apply one_line_app; [ exact H2 | plain ].
Qed.
Lemma exceeded_says p pt a at' : (Rabs p <= 2 ^ 1000)%R -> (Rabs pt <= 2 ^ 1000)%R -> (Rabs a <= 2 ^ 1000)%R -> (Rabs at' <= 2 ^ 1000)%R ->
  says_exceeded ("Camera intrinsic calibration is not within tolerance" ++ newline ++ "Position Error (m): " ++
          stream6 p ++ " (" ++ stream6 pt ++ " allowed)" ++ newline ++
          "Angular Error (rad): " ++ stream6 a ++ " (" ++ stream6 at' ++ " allowed)") p pt a at'.
Proof.
  intros. exists (stream6 p), (stream6 pt), (stream6 a), (stream6 at'). split; [ | repeat split; apply streamed_shows; try lia; assumption ].
  rewrite lines_line by (cbn; repeat split; discriminate).
  replace ("Position Error (m): " ++ _) with (("Position Error (m): " ++ stream6 p ++ " (" ++ stream6 pt ++ " allowed)") ++ newline ++
    "Angular Error (rad): " ++ stream6 a ++ " (" ++ stream6 at' ++ " allowed)") by (rewrite !append_assoc; reflexivity).
  rewrite lines_line; [ rewrite lines_one; [ reflexivity | ] | ]; plain.
Qed.
Lemma comma_line ts : Forall one_line ts -> one_line (String.concat "," ts).
Proof.
  intros F. induction F as [|t ts H F IH]; [ exact I | ]. destruct ts as [|t2 ts]; [ exact H | ].
  change (String.concat "," (t :: t2 :: ts)) with (t ++ "," ++ String.concat "," (t2 :: ts)).
  apply one_line_app; [ exact H | ]. apply one_line_app; [ cbn; repeat split; discriminate | exact IH ].
Qed.
Lemma setw_line w t : one_line t -> one_line (setw w t).
Proof. intros H. apply one_line_app; [ apply blanks_line | exact H ]. Qed.
Lemma list_says heading ns : one_line heading -> Forall (fun r => Rabs r <= 2 ^ 1000)%R ns ->
  says_list heading (heading ++ newline ++ format_list (map (streamed 4) ns)) ns.
Proof.
  intros H F. exists (format_list (map (streamed 4) ns)). unfold format_list. set (w := fold_left _ _ _). clearbody w. split.
  - rewrite lines_line by exact H. rewrite lines_one; [ reflexivity | ].
    apply one_line_app; [ cbn; repeat split; discriminate | ]. apply one_line_app; [ | cbn; repeat split; discriminate ].
    apply comma_line. apply Forall_forall. intros t Ht. rewrite map_map in Ht. apply in_map_iff in Ht as (r & <- & _). apply setw_line, streamed_line.
  - exists (map (setw w) (map (streamed 4) ns)). split; [ reflexivity | ]. induction F as [|r ns Hr F IH]; [ constructor | ]. cbn [map]. constructor; [ | exact IH ].
    assert (X : shows_digits 4 (streamed 4 r) r) by (apply streamed_shows; [ lia | exact Hr ]). exists (streamed 4 r). split; [ | exact X ].
    unfold words, setw. rewrite words_blanks. apply words_one; [ apply blank_lacks | exact (shows_some _ _ _ X) ].
Qed.
Lemma number_says heading r : one_line heading -> (Rabs r <= 2 ^ 1000)%R -> says_number heading (heading ++ newline ++ stream6 r) r.
Proof.
  intros H B. exists (stream6 r). split; [ rewrite lines_line by exact H; rewrite lines_one by apply streamed_line; reflexivity | ]. apply streamed_shows; [ lia | exact B ].
Qed.
Lemma noise_messages s : ordinary_stats s -> exists a b c d, noiseMessages s = [Info "Camera to Target Noise Results"; Info a; Info b; Info c; Info d] /\
  says_list "Position mean (m)" a (three (ps_mean (ns_p_stat s))) /\ says_list "Position standard deviation (m)" b (three (ps_stdev (ns_p_stat s))) /\
  says_list "Quaternion mean (qx, qy, qz, qw)" c (four (qs_mean (ns_q_stat s))) /\ says_number "Quaternion standard deviation" d (qs_stdev (ns_q_stat s)).
Proof.
  intros F. unfold ordinary_stats in F. apply Forall_app in F as [F1 F]. apply Forall_app in F as [F2 F]. apply Forall_app in F as [F3 F]. inversion_clear F as [|? ? F4 _].
  unfold noiseMessages. do 4 eexists. split; [ reflexivity | ].
  split; [ exact (list_says "Position mean (m)" _ ltac:(cbn; repeat split; discriminate) F1) | ]. split; [ exact (list_says "Position standard deviation (m)" _ ltac:(cbn; repeat split; discriminate) F2) | ].
  split; [ exact (list_says "Quaternion mean (qx, qy, qz, qw)" _ ltac:(cbn; repeat split; discriminate) F3) | exact (number_says "Quaternion standard deviation" _ ltac:(cbn; repeat split; discriminate) F4) ].
Qed.

Local Open Scope R_scope.
Lemma two_powers : 1 <= 2 ^ 990 /\ 16 * 2 ^ 990 <= 2 ^ 1000.
Proof.
  split; [ apply pow_R1_Rle; lra | ]. replace (2 ^ 1000) with (2 ^ 10 * 2 ^ 990) by (rewrite <- pow_add; reflexivity).
  apply Rmult_le_compat_r; [ apply pow_le; lra | lra ].
Qed.
Lemma validation_says {image features} (v : vision image features) runs k T C (ps : list (image * iso)) ms :
  validationMessages v runs k T C (Some (data_of ps)) = Ok ms ->
  exists sel vs, chosen (sees_shown v) ps sel /\ sel <> [] /\ List.length vs = List.length sel /\
    (forall i s d, nth_error sel i = Some s -> nth_error vs i = Some d ->
       measureVirtualTargetDiff (fst (runs i)) (snd (runs i)) (snd s) k (target_from_tool (snd (fst s)) C T) 1 = Ok d) /\
    let ds := map vr_positional_error vs in let angles := map vr_angular_error vs in
    let pos := average ds + 2 * std_dev ds in let ang := average angles + 2 * std_dev angles in
    (ordinary_errors ds -> ordinary_errors angles ->
     exists a b c, ms = [Info a; Info b; c] /\
      says_mean "Positional Error:" "m" a (average ds) (std_dev ds) /\ says_mean "Angular Error:" "rad" b (average angles) (std_dev angles) /\
      ((pos <= 1 / 1000 /\ ang <= 5 / 100 * PI / 180 /\ c = Info "Camera intrinsic calibration is valid!") \/
       (~ (pos <= 1 / 1000 /\ ang <= 5 / 100 * PI / 180) /\ exists t, c = Warn t /\ says_exceeded t pos (1 / 1000) ang (5 / 100 * PI / 180)))).
Proof.
  unfold validationMessages. destruct (validationObservations v (data_of ps)) as [obs | |] eqn:E; cbn [bind]; try discriminate.
  apply validation_images in E. destruct E as (sel & Ch & ->).
  destruct (measureIntrinsicCalibrationAccuracy _ _ _ _ _ _ _) as [r | |] eqn:M; cbn [bind]; try discriminate. intros H. injection H as <-.
  apply accuracy_spec in M. destruct M as (N & _ & vs & L & V & P & A). exists sel, vs.
  split; [ exact Ch | ]. split; [ intros ->; apply N; reflexivity | ]. split; [ rewrite L, map_length; reflexivity | ]. split.
  - intros i s d Hs Hd. specialize (V i (camera_moves s) d). rewrite nth_error_map, Hs in V. specialize (V eq_refl Hd).
    rewrite iso_mul_id_l in V. cbn [camera_moves correspondence_set to_camera_mount to_target_mount] in V. rewrite HandEyeToolProofs.from_tool in V. exact V.
  - cbv zeta. pose proof (tolerance_iff r (1 / 1000) (5 / 100 * PI / 180)) as W. rewrite P, A in W. cbn [fst snd] in W.
    intros [B1 B2] [B3 B4]. destruct two_powers as [Q1 Q2].
    set (p1 := average (map vr_positional_error vs)) in *. set (p2 := std_dev (map vr_positional_error vs)) in *.
    set (a1 := average (map vr_angular_error vs)) in *. set (a2 := std_dev (map vr_angular_error vs)) in *.
    assert (S1 : 0 <= p2) by apply sqrt_pos. assert (S2 : 0 <= a2) by apply sqrt_pos.
    apply abs_inv in B1, B3. pose proof PI_RGT_0 as PI0. pose proof PI_4 as PI4.
    unfold analyzeResults. rewrite P, A. cbn [fst snd]. do 3 eexists. split; [ reflexivity | ].
    split; [ apply (mean_says "Positional Error:" "m"); [ cbn; repeat split; discriminate | cbn; repeat split; discriminate | apply Rabs_le; lra | apply Rabs_le; lra ] | ].
    split; [ apply (mean_says "Angular Error:" "rad"); [ cbn; repeat split; discriminate | cbn; repeat split; discriminate | apply Rabs_le; lra | apply Rabs_le; lra ] | ].
    destruct (within_tolerance r (1 / 1000) (5 / 100 * PI / 180)).
    + left. destruct (proj1 W eq_refl) as [X Y]. split; [ exact X | split; [ exact Y | reflexivity ] ].
    + right. split; [ intros X; apply W in X; discriminate | ]. eexists. split; [ reflexivity | ].
      apply exceeded_says; apply Rabs_le; lra.
Qed.
Lemma messages_verdict {image features} (v : vision image features) runs k T C data :
  match validationMessages v runs k T C data with
  | Ok ms => exists a b, ms = [a; b; Info "Camera intrinsic calibration is valid!"%string] /\ validationTool v runs k T C data = Ok true \/
                         exists t, ms = [a; b; Warn t] /\ validationTool v runs k T C data = Ok false
  | Throw e => validationTool v runs k T C data = Throw e
  | UB => validationTool v runs k T C data = UB
  end.
Proof.
  unfold validationMessages, validationTool. destruct data as [data|]; [ | reflexivity ].
  destruct (validationObservations v data) as [obs | |]; cbn [bind]; try reflexivity.
  destruct (measureIntrinsicCalibrationAccuracy _ _ _ _ _ _ _) as [r | |]; cbn [bind]; try reflexivity.
  unfold analyzeResults. destruct (within_tolerance r _ _).
  - do 2 eexists. left. split; reflexivity.
  - do 2 eexists. right. eexists. split; reflexivity.
Qed.
