(** A synthetic scene on which the tools run. *)
From Coq Require Import Reals Arith Lia Lra String List Permutation.
From Verif.Base Require Import Geom Outcome.
From Verif.Model Require Import Pose Covariance Solver HandEye Homography Pnp Projection IntrinsicValidation DataSet ExampleTools.
From Verif.Spec Require Import Frames StatSpec PinHole ProjectionSpec HomographySpec ValidationSpec ToolSpec.
From Verif.Proofs Require Import GeomLemmas ListLemmas HandEyeProofs ProjectionProofs HomographyProofs PnpProofs IntrinsicValidationProofs ToolProofs AnalysisProofs HandEyeToolProofs.
Import ListNotations.
Local Open Scope R_scope.

(** A picture of a flat target taken by a perfect camera passes the homography check, if four of the points drawn
    are in general position. *)
Lemma perfect_flat {G} lu (seeded : nat -> G) uniform_int t k T cs c1 c2 c3 c4 i1 i2 i3 i4 : exact_solver lu -> in_bounds uniform_int ->
  (12 <= List.length cs)%nat -> 0 <= t -> fx k <> 0 -> fy k <> 0 -> rigid T -> dot (col2 (lin T)) (tr T) <> 0 -> vz (tr T) <> 0 ->
  (forall c, In c cs -> seen_by_camera k T c) ->
  incl [i1; i2; i3; i4] (randomSample seeded uniform_int (RS (List.length cs) (List.length cs / 3) 1)) ->
  nth_error cs i1 = Some c1 -> nth_error cs i2 = Some c2 -> nth_error cs i3 = Some c3 -> nth_error cs i4 = Some c4 ->
  general_position (in_target c1) (in_target c2) (in_target c3) (in_target c4) ->
  flat lu seeded uniform_int t cs.
Proof.
  intros Hlu B L Ht Fx Fy R D Z H I N1 N2 N3 N4 P. split; [ exact L | ].
  pose proof (sampler_third (List.length cs)) as M. destruct (Nat.ltb_spec (List.length cs) 12) as [? | _]; [ lia | ].
  destruct (random_draws seeded uniform_int _ _ _ _ M B) as [Ls F].
  destruct (proj2 (homography_returns lu cs (randomSample seeded uniform_int (RS (List.length cs) (List.length cs / 3) 1)))) as (es & E & Le).
  { split; [ | exact F ]. rewrite Ls. pose proof (Nat.mul_div_le (List.length cs) 3). lia. }
  exists es. split; [ exact E | ].
  assert (Z0 : forall e, In e es -> e = 0) by (eapply camera_zero; eassumption).
  assert (Es : es = map (fun _ => 0) es).
  { clear -Z0. induction es as [ | a es IH]; [ reflexivity | ]. cbn. f_equal; [ apply Z0; left; reflexivity | apply IH; intros; apply Z0; right; assumption ]. }
  rewrite Es, average_zeros. exact Ht.
Qed.

(** The scene: a camera with focal lengths 1 and the tool pose, or nothing, as picture; a target of twelve points, one
    unit in front of the origin. *)
Definition sc_intr : intrinsics := Intr 1 1 0 0.
Definition sc_target : iso := iso_trans (V3 0 0 1).
Definition sc_points : list vec3 :=
  [V3 0 0 0; V3 1 0 0; V3 0 1 0; V3 1 1 0; V3 2 0 0; V3 2 1 0; V3 0 2 0; V3 1 2 0; V3 2 2 0; V3 3 0 0; V3 3 1 0; V3 3 2 0].
Definition sc_seen (M : iso) : list (correspondence vec2) :=
  map (fun p => Corr (pinhole sc_intr (iso_app (target_from_tool M iso_id sc_target) p)) p) sc_points.
Definition sc_find (img : option iso) : list (correspondence vec2) := match img with Some M => sc_seen M | None => [] end.
Definition sc_vision : vision (option iso) (list (correspondence vec2)) :=
  Vision (fun img => Ok (sc_find img)) (fun f => match f with [] => true | _ => false end) (fun f => Ok f) (fun _ _ => Ok tt) (fun _ => Ok tt).
Definition sc_seed (n : nat) : nat := n.
(** A generator that counts, starting from zero with the seed one. *)
Definition sc_uniform (a b g : nat) : nat * nat := (Nat.min b (a + (g - 1)), S g).
Definition sc_move : iso := iso_trans (V3 (1/2) 0 0).
Definition sc_data : list (option iso * iso) := [(Some iso_id, iso_id); (None, iso_id); (Some sc_move, sc_move)].
Definition sc_sel : list ((option iso * iso) * list (correspondence vec2)) :=
  [((Some iso_id, iso_id), sc_seen iso_id); ((Some sc_move, sc_move), sc_seen sc_move)].
Definition sc_stay : solver he_vars := fun _ x => (x, Summary true 0 0).

Lemma sc_bounds : in_bounds sc_uniform.
Proof. intros a b g H. unfold sc_uniform. cbn [fst]. lia. Qed.
Lemma sc_harmless p : In p sc_data -> harmless sc_vision (fst p).
Proof. intros _. split; [ exact I | split; [ reflexivity | ] ]. intros f _. split; exact I. Qed.
Lemma sc_pose d : target_from_tool (iso_trans d) iso_id sc_target = iso_trans (vsub (V3 0 0 1) d).
Proof.
  unfold target_from_tool, sc_target. rewrite iso_mul_id_r. destruct d as [a b c]. unfold iso_mul, iso_inv, iso_trans. cbn [lin tr].
  geo_unfold. unfold I3, mT. cbn. f_equal; f_equal; ring.
Qed.
Lemma sc_id : iso_id = iso_trans (V3 0 0 0).
Proof. reflexivity. Qed.
Lemma sc_flat d : vz d < 1 -> flat (gauss 8) sc_seed sc_uniform 0 (sc_seen (iso_trans d)).
Proof.
  intros Hd. destruct d as [a b c]. cbn [vz] in Hd.
  assert (E : forall p, In p sc_points -> vz p = 0) by (intros p Hp; cbn in Hp; intuition (subst; reflexivity)).
  assert (Ez : forall p, vz (iso_app (iso_trans (vsub (V3 0 0 1) (V3 a b c))) p) = vz p + (1 - c)).
  { intros [x y z]. unfold iso_app, iso_trans. cbn [lin tr]. geo_unfold. unfold I3. cbn. ring. }
  pose (q i := Corr (pinhole sc_intr (iso_app (target_from_tool (iso_trans (V3 a b c)) iso_id sc_target) (nth i sc_points vzero))) (nth i sc_points vzero)).
  apply (perfect_flat _ _ _ _ sc_intr (iso_trans (vsub (V3 0 0 1) (V3 a b c))) _ (q 0%nat) (q 1%nat) (q 2%nat) (q 3%nat) 0 1 2 3).
  - exact gauss_exact.
  - exact sc_bounds.
  - cbn. lia.
  - lra.
  - cbn. lra.
  - cbn. lra.
  - apply rigid_trans.
  - unfold iso_trans, dot, col2, vsub, I3. cbn. lra.
  - unfold iso_trans, vsub. cbn. lra.
  - intros cc Hc. unfold sc_seen in Hc. apply in_map_iff in Hc. destruct Hc as (p & <- & Hp). unfold seen_by_camera. cbn [in_target in_image].
    rewrite Ez, E by exact Hp. split; [ reflexivity | split; [ lra | ] ]. rewrite sc_pose. reflexivity.
  - unfold sc_seen. rewrite map_length. cbn. intros x H. exact H.
  - reflexivity.
  - reflexivity.
  - reflexivity.
  - reflexivity.
  - unfold general_position, not_collinear, q. cbn [in_target nth sc_points vx vy]. repeat split; lra.
Qed.
Lemma sc_chosen : chosen (usable sc_vision (gauss 8) sc_seed sc_uniform 0) sc_data sc_sel.
Proof.
  assert (Y : forall d T, vz d < 1 -> usable sc_vision (gauss 8) sc_seed sc_uniform 0 (Some (iso_trans d), T) (sc_seen (iso_trans d))).
  { intros d T Hd. split; [ | apply sc_flat, Hd ]. exists (sc_seen (iso_trans d)). repeat split. }
  unfold sc_data, sc_sel. constructor; [ apply (Y vzero); cbn; lra | ]. constructor 3.
  - intros b [(f & F & N & _) _]. cbn in F. injection F as <-. discriminate.
  - constructor; [ apply Y; cbn; lra | constructor ].
Qed.
Lemma sc_fits o : correspondence_set o <> [] -> forall r k, exists fit, fitted ex_run k (predicted r o) (correspondence_set o) fit.
Proof. intros N r k. destruct (ex_fits k (predicted r o) _ N) as (fit & F & _). exists fit. exact F. Qed.

Lemma sc_perfect M c : In (M, c) (seen_pairs sc_sel) ->
  let pose := target_from_tool M iso_id sc_target in vz (in_target c) = 0 /\ 0 < vz (iso_app pose (in_target c)) /\
  crosses_plane pose (iso_app pose (in_target c)) /\ in_image c = pinhole sc_intr (iso_app pose (in_target c)).
Proof.
  unfold seen_pairs. rewrite in_flat_map. intros (s & Hs & Hc). apply in_map_iff in Hc. destruct Hc as (c' & E & Hc). injection E as <- <-.
  assert (X : exists d, (vz d = 0 /\ 0 <= vx d <= 1 /\ vy d = 0) /\ snd (fst s) = iso_trans d /\ snd s = sc_seen (iso_trans d)).
  { destruct Hs as [<- | [<- | []]]; [ exists vzero | exists (V3 (1/2) 0 0) ]; (split; [ cbn; lra | split; reflexivity ]). }
  destruct X as (d & (Hd & Hx & Hy) & E1 & E2). rewrite E2 in Hc. rewrite E1. unfold sc_seen in Hc. apply in_map_iff in Hc. destruct Hc as (p & <- & Hp).
  cbn [in_target in_image]. cbv zeta. rewrite !sc_pose.
  assert (Zp : vz p = 0) by (cbn in Hp; intuition (subst; reflexivity)). destruct d as [a b z], p as [x y w]. cbn [vz] in *. subst z w.
  split; [ reflexivity | ]. split; [ unfold iso_app, iso_trans; cbn [lin tr]; geo_unfold; unfold I3; cbn; lra | ]. split; [ | reflexivity ].
  cbn [vx vy] in *. subst b.
  assert (Rx : 0 <= x <= 3 /\ 0 <= y <= 2) by (cbn in Hp; repeat destruct Hp as [Hp | Hp]; try contradiction; injection Hp as <- <-; lra).
  assert (E : iso_app (iso_trans (vsub (V3 0 0 1) (V3 a 0 0))) (V3 x y 0) = V3 (x - a) y 1).
  { unfold iso_app, iso_trans. cbn [lin tr]. geo_unfold. unfold I3. cbn. f_equal; ring. }
  rewrite E. unfold crosses_plane.
  replace (dot (V3 (x - a) y 1) (col2 (lin (iso_trans (vsub (V3 0 0 1) (V3 a 0 0)))))) with 1 by (unfold iso_trans; cbn [lin]; unfold dot, col2, I3; cbn; ring).
  rewrite Rabs_R1.
  assert (B : norm (V3 (x - a) y 1) <= 4).
  { unfold norm. replace 4 with (sqrt (4 * 4)) by (apply sqrt_square; lra). apply sqrt_le_1_alt. unfold dot. cbn [vx vy vz]. nra. }
  lra.
Qed.

(** The tool for a camera on the wrist runs on the scene with any drawing, and reports no error. *)
Lemma sc_tool : exists rep, handEyeTool on_wrist sc_vision (gauss 8) sc_seed sc_uniform (fun img _ => Ok img) (fun _ => Ok tt)
    (fun _ _ => 0) sc_stay ex_cov_oracle (fun _ => ex_run) 0 sc_intr sc_target iso_id (Some (data_of sc_data)) = Ok rep /\
  rep_errors rep = ErrorStats 0 (Some 0) 0 0.
Proof.
  unfold handEyeTool.
  destruct (collects sc_vision (gauss 8) sc_seed sc_uniform on_wrist 0 sc_data sc_bounds sc_harmless) as (obs & imgs & E). rewrite E. cbn [bind].
  pose proof (collected _ _ _ _ _ _ _ _ _ E) as (sel & Ch & -> & ->).
  assert (sel = sc_sel).
  { refine (chosen_unique _ _ _ _ sc_chosen _ Ch). intros a b b' [H _] [H' _]. exact (sees_unique _ _ _ _ H H'). }
  subst sel. clear Ch.
  set (problem := HEP2 _ _ _ _ _).
  assert (Ob : forall o, In o (h2_observations problem) -> plain_pose (to_camera_mount o) /\ plain_pose (to_target_mount o) /\ correspondence_set o <> []).
  { intros o Ho. unfold problem in Ho. cbn [h2_observations map sc_sel] in Ho.
    destruct Ho as [<- | [<- | []]]; (split; [ | split; [ exact plain_id | discriminate ] ]); [ exact plain_id | apply plain_id_tr ]. }
  assert (Pr : forall o, In o (h2_observations problem) -> forall c, In c (correspondence_set o) -> In (to_camera_mount o, c) (seen_pairs sc_sel)).
  { intros o Ho c Hc. unfold problem in Ho. cbn [h2_observations] in Ho. apply in_map_iff in Ho. destruct Ho as (s & <- & Hs).
    unfold seen_pairs. apply in_flat_map. exists s. split; [ exact Hs | ]. apply in_map. exact Hc. }
  assert (Tm : forall o, In o (h2_observations problem) -> to_target_mount o = iso_id).
  { intros o Ho. unfold problem in Ho. cbn [h2_observations] in Ho. apply in_map_iff in Ho. destruct Ho as (s & <- & Hs). reflexivity. }
  destruct (accept2 (fun _ _ => 0) sc_stay ex_cov_oracle problem) as [r Hr]; try reflexivity.
  { apply ex_oracle_lists. } { apply ex_oracle_sym. } { exact plain_id. } { apply plain_id_tr. }
  { intros o Ho. destruct (Ob o Ho) as (A & B & _). split; assumption. }
  { discriminate. }
  { intros o c Ho Hc. rewrite (Tm o Ho), from_tool. exact (proj1 (proj2 (sc_perfect _ _ (Pr o Ho c Hc)))). }
  rewrite Hr. cbn [bind].
  destruct (unmoved2 _ sc_stay _ _ _ (fun b x => eq_refl) Hr plain_id (plain_id_tr (V3 0 0 1))) as [Ec Et]. cbn [problem h2_camera_guess h2_target_guess] in Ec, Et.
  assert (An : analyze3DProjectionError problem r = Ok (ErrorStats 0 (Some 0) 0 0)).
  { unfold analyze3DProjectionError. rewrite Ec, Et. rewrite error_set_perfect.
    - cbn [bind]. apply error_stats_zero. cbn. lia.
    - cbn. lra.
    - cbn. lra.
    - apply rigid_id.
    - apply rigid_trans.
    - intros o Ho. destruct (Ob o Ho) as (A & B & _). split; [ exact (proj1 A) | split; [ exact (proj1 B) | ] ].
      intros c Hc. rewrite (Tm o Ho), from_tool. destruct (sc_perfect _ _ (Pr o Ho c Hc)) as (P1 & P2 & P3 & P4). split; [ exact P1 | split; [ lra | split; assumption ] ]. }
  rewrite An. cbn [bind].
  destruct (analyze_succeeds (fun (img : option iso) _ => Ok img) (fun _ => Ok tt) (fun _ => ex_run) problem r (map (fun s => fst (fst s)) sc_sel)) as [d Hd].
  { discriminate. } { reflexivity. } { rewrite Ec. apply rigid_id. } { intros o Ho. exact (proj1 (proj1 (Ob o Ho))). }
  { intros img pts. exists img. reflexivity. } { reflexivity. }
  { intros i o Ho _. apply sc_fits. exact (proj2 (proj2 (Ob o (nth_error_In _ _ Ho)))). }
  rewrite Hd. cbn [bind]. eexists. split; reflexivity.
Qed.

(** The scene as a problem with its result. *)
Definition sc_problem : he_problem2D3D := HEP2 (map camera_moves sc_sel) sc_intr sc_target iso_id default_he_labels.
Definition sc_result (c : cov_result) : he_result := HER true 0 0 sc_target iso_id c.
Lemma sc_analyzed c : exists d, analyzeResults (fun (img : nat) _ => Ok img) (fun _ => Ok tt) (fun _ => ex_run) sc_problem (sc_result c) [1; 2]%nat = Ok d.
Proof.
  apply analyze_succeeds.
  - discriminate.
  - reflexivity.
  - apply rigid_id.
  - intros o [<- | [<- | []]]; [ apply rigid_id | apply rigid_trans ].
  - intros img pts. exists img. reflexivity.
  - reflexivity.
  - intros i o Ho _. apply sc_fits. apply nth_error_In in Ho. destruct Ho as [<- | [<- | []]]; discriminate.
Qed.
