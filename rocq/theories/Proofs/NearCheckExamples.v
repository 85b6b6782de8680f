(** C117: noisy data that meet the hypotheses. *)
From Coq Require Import Reals Lra Psatz Arith Lia String List.
From Verif.Base Require Import Geom Outcome Matrix.
From Verif.Model Require Import Pose Covariance Solver HandEye Pnp IntrinsicValidation NoiseQualification DataSet ExampleTools.
From Verif.Spec Require Import PinHole Frames HomographySpec StatSpec ValidationSpec ToolSpec UniqueSpec PnpSpec NearSpec CheckSpec.
From Verif.Proofs Require Import GeomLemmas RotLemmas HandEyeProofs PnpProofs NoiseProofs IntrinsicValidationProofs HandEyeToolProofs LoopProofs UniqueProofs UniqueExamples NearBest NearExamples NearChecks.
From Verif.Proofs Require SceneProofs.
Import ListNotations.
Local Open Scope R_scope.

Definition ex_still : pnp_run := Run (fun _ _ => 0) sc_stay ex_cov_oracle.
(** The constant answer is right if all orientations are the same. *)
Lemma same_dominant q l : qnorm2 q = 1 -> (forall x, In x l -> x = q) -> dominant (quaternion_matrix l) q.
Proof.
  intros U H. split; [ exact U | ]. intros v Uv. rewrite !quad_matrix. clear -U H Uv. induction l as [|x l IH]; [ apply Rle_refl | ].
  cbn [map]. unfold total in *. cbn [fold_right]. specialize (IH (fun y Hy => H y (or_intror Hy))). rewrite (H x (or_introl eq_refl)).
  pose proof (unit_dot_le q v U Uv) as A. assert (E : qdot q q = 1) by (unfold qnorm2 in U; unfold qdot; lra). rewrite E. lra.
Qed.
Lemma still_right {P} (optimize : nat -> P -> res pnp_result) ps T : rigid T ->
  (forall i p r, nth_error ps i = Some p -> optimize i p = Ok r -> pnp_camera_to_target r = T) ->
  right_for (fun _ => quat_of_mat (lin T)) optimize ps.
Proof.
  intros RT H rs [L Hr]. apply same_dominant; [ apply quat_of_mat_unit, RT | ]. intros x Hx. unfold orientations in Hx.
  apply in_map_iff in Hx as (S & <- & HS). apply solution_in in HS as (i & r & Hi & _ & ->).
  destruct (nth_other ps rs i r L Hi) as [p Hp]. rewrite (H i p r Hp (Hr i p r Hp Hi)). reflexivity.
Qed.
Lemma two_nth {A} (a b : A) i p : nth_error [a; b] i = Some p -> p = a \/ p = b.
Proof. destruct i as [|[|i]]; cbn; intros E; [ left | right | destruct i; discriminate ]; congruence. Qed.
(** Two pictures of a square, all pixels off by the noise in the first, by half of it in the second. *)
Lemma ex_noise_near2 : exists k T0 cs0, rigid T0 /\ ~ edge_on T0 /\ fx k <> 0 /\ fy k <> 0 /\ four_flat_points (map in_target cs0) /\ perfect_image k T0 cs0 /\
  forall d, 0 < d -> exists svd runs ps s, qualifyNoise2D svd runs ps = Ok s /\
    let optimize i p := optimizePnP (run_u (runs i)) (run_solve (runs i)) (run_cov (runs i)) p in
    right_for svd optimize ps /\
    (forall i p, nth_error ps i = Some p -> honest (run_solve (runs i)) /\ pnp_intr p = k /\ near_picture d (pnp_correspondences p) cs0 /\
       ~ perfect_image k T0 (pnp_correspondences p) /\
       forall r, optimize i p = Ok r -> pnp_converged r = true -> explains k T0 d (pnp_correspondences p) r).
Proof.
  assert (PI0 : perfect_image ex_k ex_ahead (ex_image2 ex_k ex_ahead)) by apply ex_image2_perfect, ex_ahead_front.
  exists ex_k, ex_ahead, (ex_image2 ex_k ex_ahead). split; [ apply ex_ahead_rigid | split; [ apply ex_ahead_not_edge_on | ] ].
  split; [ cbn; lra | split; [ cbn; lra | split; [ apply ex_square_flat | split; [ exact PI0 | ] ] ] ].
  intros d Hd. destruct (unit_square d Hd) as (SQ & H0 & H1). set (h := Rmin d 1) in *.
  set (p h := PnP2 ex_k (map (blur2 h) (ex_image2 ex_k ex_ahead)) ex_ahead "camera_to_target").
  assert (Ok1 : forall h, exists r, optimizePnP (fun _ _ => 0) sc_stay ex_cov_oracle (p h) = Ok r).
  { intros h'. apply pnp_succeeds2; try reflexivity; [ apply ex_oracle_sym | discriminate ]. }
  assert (X : forall h r, optimizePnP (fun _ _ => 0) sc_stay ex_cov_oracle (p h) = Ok r -> pnp_camera_to_target r = ex_ahead /\ pnp_converged r = true /\
    explains ex_k ex_ahead d (pnp_correspondences (p h)) r).
  { intros h' r E. assert (Er : pnp_camera_to_target r = ex_ahead) by (apply (pnp_unmoved2 _ _ _ _ _ sc_stay_stays E), ex_ahead_rigid).
    assert (AF : all_in_front ex_ahead (pnp_correspondences (p h'))).
    { intros c Hc. apply in_map_iff in Hc as (c0 & <- & Hc0). apply (PI0 c0 Hc0). }
    split; [ exact Er | split ].
    - destruct (pnp_result2 (p h')) as (b & _ & Y). destruct (Y _ _ _ _ E) as (_ & x & s & Es & C & _). rewrite C. injection Es as <- <-. reflexivity.
    - split; [ rewrite Er; exact AF | right ]. rewrite (pnp_stay_cost _ _ _ _ E ex_ahead_rigid AF). apply Rle_refl. }
  destruct (Ok1 h) as [r1 E1]. destruct (Ok1 (h / 2)) as [r2 E2].
  exists (fun _ => quat_of_mat (lin ex_ahead)), (fun _ => ex_still), [p h; p (h / 2)].
  destruct (qualify_succeeds (fun _ => quat_of_mat (lin ex_ahead)) (fun _ q => optimizePnP (run_u ex_still) (run_solve ex_still) (run_cov ex_still) q) [p h; p (h / 2)] [r1; r2]) as [s Es].
  { reflexivity. }
  { intros [|[|i]] q r Hq Hr; cbn [nth_error] in Hq, Hr; [ injection Hq as <-; injection Hr as <-; exact E1 | injection Hq as <-; injection Hr as <-; exact E2 | destruct i; discriminate ]. }
  { unfold solutions. cbn [filter]. rewrite (proj1 (proj2 (X _ _ E1))), (proj1 (proj2 (X _ _ E2))). cbn. lia. }
  exists s. split; [ exact Es | ]. cbv zeta. split.
  - apply still_right; [ apply ex_ahead_rigid | ]. intros i q r Hq Er. apply two_nth in Hq as [->| ->]; exact (proj1 (X _ _ Er)).
  - assert (Y : forall h', 0 < h' <= d -> forall i q, q = p h' -> honest (run_solve ((fun _ : nat => ex_still) i)) /\ pnp_intr q = ex_k /\
      near_picture d (pnp_correspondences q) (ex_image2 ex_k ex_ahead) /\ ~ perfect_image ex_k ex_ahead (pnp_correspondences q) /\
      forall r, optimizePnP (run_u ex_still) (run_solve ex_still) (run_cov ex_still) q = Ok r -> pnp_converged r = true -> explains ex_k ex_ahead d (pnp_correspondences q) r).
    { intros h' Hh i q ->. split; [ apply sc_stay_honest | split; [ reflexivity | ] ]. split; [ apply blur2_near; lra | ].
      split; [ apply blur2_not_perfect; [ lra | discriminate | exact PI0 ] | ]. intros r Er _. exact (proj2 (proj2 (X _ _ Er))). }
    intros i q Hq. apply two_nth in Hq as [Hq|Hq]; [ exact (Y h ltac:(lra) i q Hq) | exact (Y (h / 2) ltac:(lra) i q Hq) ].
Qed.
Lemma ex_noise_near3 : exists T0 cs0, rigid T0 /\ not_on_a_line (map in_target cs0) /\ perfect_points T0 cs0 /\
  forall d, 0 < d -> exists svd runs ps s, qualifyNoise3D svd runs ps = Ok s /\
    let optimize i p := optimizePnP3D (run_u (runs i)) (run_solve (runs i)) (run_cov (runs i)) p in
    right_for svd optimize ps /\
    (forall i p, nth_error ps i = Some p -> honest (run_solve (runs i)) /\ Forall2 (near_point d) (pnp3_correspondences p) cs0 /\
       ~ perfect_points T0 (pnp3_correspondences p) /\
       forall r, optimize i p = Ok r -> pnp_converged r = true -> explains_points T0 d (pnp3_correspondences p) r).
Proof.
  assert (PI0 : perfect_points ex_ahead (ex_image3 ex_ahead)) by apply ex_image3_perfect.
  exists ex_ahead, (ex_image3 ex_ahead). split; [ apply ex_ahead_rigid | split; [ apply ex_square_not_on_a_line | split; [ exact PI0 | ] ] ].
  intros d Hd. destruct (unit_square d Hd) as (SQ & H0 & H1). set (h := Rmin d 1) in *.
  set (p h := PnP3 (map (blur3 h) (ex_image3 ex_ahead)) ex_ahead "camera_to_target").
  assert (Ok1 : forall h, exists r, optimizePnP3D (fun _ _ => 0) sc_stay ex_cov_oracle (p h) = Ok r).
  { intros h'. apply pnp_succeeds3; try reflexivity; [ apply ex_oracle_sym | discriminate ]. }
  assert (X : forall h r, optimizePnP3D (fun _ _ => 0) sc_stay ex_cov_oracle (p h) = Ok r -> pnp_camera_to_target r = ex_ahead /\ pnp_converged r = true /\
    explains_points ex_ahead d (pnp3_correspondences (p h)) r).
  { intros h' r E. assert (Er : pnp_camera_to_target r = ex_ahead) by (apply (pnp_unmoved3 _ _ _ _ _ sc_stay_stays E), ex_ahead_rigid).
    split; [ exact Er | split ].
    - destruct (pnp_result3 (p h')) as (b & _ & Y). destruct (Y _ _ _ _ E) as (_ & x & s & Es & C & _). rewrite C. injection Es as <- <-. reflexivity.
    - right. rewrite (pnp_stay_cost3 _ _ _ _ E ex_ahead_rigid). apply Rle_refl. }
  destruct (Ok1 h) as [r1 E1]. destruct (Ok1 (h / 2)) as [r2 E2].
  exists (fun _ => quat_of_mat (lin ex_ahead)), (fun _ => ex_still), [p h; p (h / 2)].
  destruct (qualify_succeeds (fun _ => quat_of_mat (lin ex_ahead)) (fun _ q => optimizePnP3D (run_u ex_still) (run_solve ex_still) (run_cov ex_still) q) [p h; p (h / 2)] [r1; r2]) as [s Es].
  { reflexivity. }
  { intros [|[|i]] q r Hq Hr; cbn [nth_error] in Hq, Hr; [ injection Hq as <-; injection Hr as <-; exact E1 | injection Hq as <-; injection Hr as <-; exact E2 | destruct i; discriminate ]. }
  { unfold solutions. cbn [filter]. rewrite (proj1 (proj2 (X _ _ E1))), (proj1 (proj2 (X _ _ E2))). cbn. lia. }
  exists s. split; [ exact Es | ]. cbv zeta. split.
  - apply still_right; [ apply ex_ahead_rigid | ]. intros i q r Hq Er. apply two_nth in Hq as [->| ->]; exact (proj1 (X _ _ Er)).
  - assert (Y : forall h', 0 < h' <= d -> forall i q, q = p h' -> honest (run_solve ((fun _ : nat => ex_still) i)) /\
      Forall2 (near_point d) (pnp3_correspondences q) (ex_image3 ex_ahead) /\ ~ perfect_points ex_ahead (pnp3_correspondences q) /\
      forall r, optimizePnP3D (run_u ex_still) (run_solve ex_still) (run_cov ex_still) q = Ok r -> pnp_converged r = true -> explains_points ex_ahead d (pnp3_correspondences q) r).
    { intros h' Hh i q ->. split; [ apply sc_stay_honest | ]. split; [ apply blur3_near; lra | ].
      split; [ apply blur3_not_perfect; [ lra | discriminate | exact PI0 ] | ]. intros r Er _. exact (proj2 (proj2 (X _ _ Er))). }
    intros i q Hq. apply two_nth in Hq as [Hq|Hq]; [ exact (Y h ltac:(lra) i q Hq) | exact (Y (h / 2) ltac:(lra) i q Hq) ].
Qed.

(** ** Two squares side by side, seen from two places *)
Definition ex_squares : list vec3 := ex_square ++ [V3 2 0 0; V3 3 0 0; V3 2 1 0; V3 3 1 0].
Definition ex_shot (a : R) : list (correspondence vec2) := map (fun v => Corr (pinhole ex_k (iso_app (iso_trans (V3 a 0 1)) v)) v) ex_squares.
Definition ex_ref (a : R) : iso * list (correspondence vec2) := (iso_trans (V3 a 0 1), ex_shot a).
Lemma ex_squares_z v : In v ex_squares -> vz v = 0.
Proof. cbn. intuition (subst; reflexivity). Qed.
Lemma ex_shot_perfect a : perfect_image ex_k (iso_trans (V3 a 0 1)) (ex_shot a).
Proof.
  intros c Hc. apply in_map_iff in Hc as (v & <- & Hv). apply ex_squares_z in Hv. split; [ | reflexivity ].
  cbn [in_target]. unfold in_front, iso_app, iso_trans, mvec, vadd, I3. cbn. rewrite Hv. lra.
Qed.
Lemma ex_ref_good a : good_reference ex_k (ex_ref a).
Proof.
  unfold good_reference. cbn [fst snd ex_ref]. split; [ apply rigid_trans | split ].
  - unfold edge_on, iso_trans, dot, col2, I3. cbn. lra.
  - split; [ apply ex_shot_perfect | split ]; [ apply ex_square_flat | ].
    change (map in_target (second_half (ex_shot a))) with [V3 2 0 0; V3 3 0 0; V3 2 1 0; V3 3 1 0].
    exists (V3 2 0 0), (V3 3 0 0), (V3 2 1 0), (V3 3 1 0). unfold general_position, not_collinear. cbn [In vx vy vz]. repeat split; auto 6; lra.
Qed.
(** Fits that stay at the true pose *)
Lemma still_fit T cs h : rigid T -> perfect_image ex_k T cs -> cs <> [] -> 0 <= h <= 1 ->
  (exists r, fitted ex_still ex_k T (map (blur2 h) cs) r /\ good_fit 1 r) /\
  forall d r, fitted ex_still ex_k T (map (blur2 h) cs) r -> explains ex_k T d (map (blur2 h) cs) r.
Proof.
  intros RT PI N Hh. set (p := PnP2 ex_k (map (blur2 h) cs) T "camera_to_target").
  assert (AF : all_in_front T (pnp_correspondences p)).
  { intros c Hc. apply in_map_iff in Hc as (c0 & <- & Hc0). apply (PI c0 Hc0). }
  split.
  - destruct (pnp_succeeds2 (fun _ _ => 0) sc_stay ex_cov_oracle p) as [r E]; try reflexivity; [ apply ex_oracle_sym | destruct cs; [ contradiction | discriminate ] | ].
    exists r. split; [ exact E | split ].
    + destruct (pnp_result2 p) as (b & _ & Y). destruct (Y _ _ _ _ E) as (_ & x & s & Es & C & _). rewrite C. injection Es as <- <-. reflexivity.
    + rewrite (pnp_stay_cost _ _ _ _ E RT AF). apply Rle_trans with (h * h); [ apply cost_of_small; [ lra | ] | nra ].
      intros f Hf. apply (blur2_errors ex_k T h cs); [ lra | exact PI | exact Hf ].
  - intros d r E. assert (Er : pnp_camera_to_target r = T) by (apply (pnp_unmoved2 _ _ _ _ _ sc_stay_stays E), RT).
    split; [ rewrite Er; exact AF | right ]. rewrite (pnp_stay_cost _ _ _ _ E RT AF). apply Rle_refl.
Qed.
Lemma half_map1 {A B} (f : A -> B) l : first_half (map f l) = map f (first_half l).
Proof. unfold first_half. rewrite map_length. apply firstn_map. Qed.
Lemma half_map2 {A B} (f : A -> B) l : second_half (map f l) = map f (second_half l).
Proof. unfold second_half. rewrite map_length. apply skipn_map. Qed.
Lemma ex_shot_checked a d h : 0 <= h <= d -> h <= 1 ->
  checked_near d ex_k (ex_ref a) (ex_still, ex_still) (iso_trans (V3 a 0 1)) (map (blur2 h) (ex_shot a)) /\
  exists v, measureVirtualTargetDiff ex_still ex_still (map (blur2 h) (ex_shot a)) ex_k (iso_trans (V3 a 0 1)) 1 = Ok v.
Proof.
  intros Hd Hh. assert (P1 : perfect_image ex_k (iso_trans (V3 a 0 1)) (first_half (ex_shot a))).
  { apply perfect_incl with (2 := ex_shot_perfect a). intros c. apply firstn_sub. }
  assert (P2 : perfect_image ex_k (iso_trans (V3 a 0 1)) (second_half (ex_shot a))).
  { apply perfect_incl with (2 := ex_shot_perfect a). intros c. apply skipn_sub. }
  destruct (still_fit _ _ h (rigid_trans (V3 a 0 1)) P1 ltac:(discriminate) ltac:(lra)) as [(r1 & F1 & G1) X1].
  destruct (still_fit _ _ h (rigid_trans (V3 a 0 1)) P2 ltac:(discriminate) ltac:(lra)) as [(r2 & F2 & G2) X2].
  split.
  - unfold checked_near. cbn [fst snd ex_ref]. rewrite half_map1, half_map2. split; [ apply blur2_near, Hd | ].
    split; [ apply sc_stay_honest | split; [ apply sc_stay_honest | ] ]. split; intros r; [ apply X1 | apply X2 ].
  - exact (virtual_succeeds ex_still ex_still (map (blur2 h) (ex_shot a)) ex_k (iso_trans (V3 a 0 1)) 1 (map (blur2 h) (first_half (ex_shot a)))
      (map (blur2 h) (second_half (ex_shot a))) r1 r2 eq_refl eq_refl F1 G1 F2 G2).
Qed.
Lemma shot_not_perfect a h : 0 < h -> ~ perfect_image ex_k (iso_trans (V3 a 0 1)) (map (blur2 h) (ex_shot a)).
Proof. intros H. apply blur2_not_perfect; [ exact H | discriminate | apply ex_shot_perfect ]. Qed.

Definition ex_refs : list (iso * list (correspondence vec2)) := [ex_ref 0; ex_ref (-1 / 2)].
Lemma ex_refs_good ref : In ref ex_refs -> good_reference ex_k ref.
Proof. intros [<-|[<-|[]]]; apply ex_ref_good. Qed.
Lemma ex_virtual_near : exists k ref, fx k <> 0 /\ fy k <> 0 /\ good_reference k ref /\
  forall d, 0 < d -> exists runs guess t cs v, measureVirtualTargetDiff (fst runs) (snd runs) cs k guess t = Ok v /\
    checked_near d k ref runs guess cs /\ ~ perfect_image k (fst ref) cs.
Proof.
  exists ex_k, (ex_ref 0). split; [ cbn; lra | split; [ cbn; lra | split; [ apply ex_ref_good | ] ] ].
  intros d Hd. destruct (unit_square d Hd) as (_ & H0 & H1). pose proof (Rmin_r d 1) as H2. set (h := Rmin d 1) in *.
  destruct (ex_shot_checked 0 d h ltac:(lra) H2) as [C (v & E)].
  exists (ex_still, ex_still), (iso_trans (V3 0 0 1)), 1, (map (blur2 h) (ex_shot 0)), v. split; [ exact E | split; [ exact C | ] ]. apply shot_not_perfect, H0.
Qed.
(** A tool pose that puts the target at [a] *)
Definition ex_tool (a : R) : iso := iso_trans (V3 (- a) 0 0).
Lemma ex_tool_pose a : target_from_tool (ex_tool a) iso_id (iso_trans (V3 0 0 1)) = iso_trans (V3 a 0 1).
Proof.
  unfold ex_tool. change (iso_trans (V3 0 0 1)) with SceneProofs.sc_target. rewrite SceneProofs.sc_pose. f_equal. unfold vsub. cbn. f_equal; ring.
Qed.
Definition ex_data (h : R) : list (list (correspondence vec2) * iso) :=
  [(map (blur2 h) (ex_shot 0), ex_tool 0); ([], iso_id); (map (blur2 h) (ex_shot (-1 / 2)), ex_tool (-1 / 2))].
Definition ex_sel (h : R) : list ((list (correspondence vec2) * iso) * list (correspondence vec2)) :=
  [((map (blur2 h) (ex_shot 0), ex_tool 0), map (blur2 h) (ex_shot 0));
   ((map (blur2 h) (ex_shot (-1 / 2)), ex_tool (-1 / 2)), map (blur2 h) (ex_shot (-1 / 2)))].
(** Images are the pictures themselves; in the empty one nothing is found. *)
Definition ex_eyes : vision (list (correspondence vec2)) (list (correspondence vec2)) :=
  Vision (fun img => Ok img) (fun f => match f with [] => true | _ => false end) (fun f => Ok f) (fun _ _ => Ok tt) (fun _ => Ok tt).
Lemma ex_quiet img : quiet ex_eyes img.
Proof. split; [ exact I | split; [ reflexivity | ] ]. intros f _. split; [ exact I | ]. intros _ _. exists f. reflexivity. Qed.
Lemma ex_chosen h sel : chosen (sees_shown ex_eyes) (ex_data h) sel -> sel = ex_sel h.
Proof.
  assert (S : forall a T, sees_shown ex_eyes (map (blur2 h) (ex_shot a), T) (map (blur2 h) (ex_shot a))).
  { intros a T. exists (map (blur2 h) (ex_shot a)). repeat split. }
  assert (C : chosen (sees_shown ex_eyes) (ex_data h) (ex_sel h)).
  { unfold ex_data, ex_sel. constructor; [ apply S | ]. constructor 3.
    - intros b (f & F & N & _). cbn in F. injection F as <-. discriminate.
    - constructor; [ apply S | constructor ]. }
  intros H. refine (chosen_unique _ _ _ _ C _ H). intros x y y' (f & F & _ & _ & X) (f' & F' & _ & _ & X'). congruence.
Qed.
Lemma ex_seen h d i s ref : 0 < h <= d -> h <= 1 -> nth_error (ex_sel h) i = Some s -> nth_error ex_refs i = Some ref ->
  checked_near d ex_k ref (ex_still, ex_still) (target_from_tool (snd (fst s)) iso_id (iso_trans (V3 0 0 1))) (snd s) /\
  (exists v, measureVirtualTargetDiff ex_still ex_still (snd s) ex_k (target_from_tool (snd (fst s)) iso_id (iso_trans (V3 0 0 1))) 1 = Ok v) /\
  ~ perfect_image ex_k (fst ref) (snd s).
Proof.
  intros Hd Hh Hs Hr. destruct i as [|[|i]]; cbn [nth_error ex_sel ex_refs] in Hs, Hr; [ | | destruct i; discriminate ];
    injection Hs as <-; injection Hr as <-; cbn [fst snd]; rewrite ex_tool_pose.
  - destruct (ex_shot_checked 0 d h ltac:(lra) Hh) as [A B]. split; [ exact A | split; [ exact B | apply shot_not_perfect; lra ] ].
  - destruct (ex_shot_checked (-1 / 2) d h ltac:(lra) Hh) as [A B]. split; [ exact A | split; [ exact B | apply shot_not_perfect; lra ] ].
Qed.

Definition ex_obs (h : R) : list (observation vec2) := map camera_moves (ex_sel h).
Lemma ex_obs_ok h i o : nth_error (ex_obs h) i = Some o -> exists s ref, nth_error (ex_sel h) i = Some s /\ nth_error ex_refs i = Some ref /\
  correspondence_set o = snd s /\
  target_in_camera iso_id (to_camera_mount o) (iso_mul iso_id (to_target_mount o)) (iso_trans (V3 0 0 1)) = target_from_tool (snd (fst s)) iso_id (iso_trans (V3 0 0 1)).
Proof.
  intros H. unfold ex_obs in H. rewrite nth_error_map in H. destruct (nth_error (ex_sel h) i) as [s|] eqn:Es; [ | discriminate ]. injection H as <-.
  destruct (nth_other ex_refs (ex_sel h) i s eq_refl Es) as [ref Hr]. exists s, ref. split; [ reflexivity | split; [ exact Hr | split; [ reflexivity | ] ] ].
  unfold camera_moves, target_in_camera, target_from_tool. cbn [to_camera_mount to_target_mount]. rewrite !iso_mul_id_r, ?iso_mul_id_l. reflexivity.
Qed.
Lemma ex_accuracy_ok h : 0 < h <= 1 -> exists r, measureIntrinsicCalibrationAccuracy (fun _ => (ex_still, ex_still)) (ex_obs h) ex_k iso_id (iso_trans (V3 0 0 1)) iso_id 1 = Ok r.
Proof.
  intros Hh. apply accuracy_succeeds; [ discriminate | | ].
  - intros o o' Ho Ho'. cbn in Ho, Ho'. destruct Ho as [<- | [<- | []]], Ho' as [<- | [<- | []]]; reflexivity.
  - intros i o Ho. destruct (ex_obs_ok h i o Ho) as (s & ref & Hs & Hr & E1 & E2). cbn [fst snd]. rewrite E1, E2.
    destruct (ex_seen h h i s ref) as (_ & V & _); try assumption; try lra; exact V.
Qed.
Lemma ex_accuracy_near : exists k refs, fx k <> 0 /\ fy k <> 0 /\ (forall ref, In ref refs -> good_reference k ref) /\ List.length refs = 2%nat /\
  forall d, 0 < d -> exists runs os C T B t r, measureIntrinsicCalibrationAccuracy runs os k C T B t = Ok r /\
    List.length os = List.length refs /\
    forall i o ref, nth_error os i = Some o -> nth_error refs i = Some ref ->
       checked_near d k ref (runs i) (target_in_camera C (to_camera_mount o) (iso_mul B (to_target_mount o)) T) (correspondence_set o) /\
       ~ perfect_image k (fst ref) (correspondence_set o).
Proof.
  exists ex_k, ex_refs. split; [ cbn; lra | split; [ cbn; lra | split; [ exact ex_refs_good | split; [ reflexivity | ] ] ] ].
  intros d Hd. destruct (unit_square d Hd) as (_ & H0 & H1). pose proof (Rmin_r d 1) as H2. set (h := Rmin d 1) in *.
  destruct (ex_accuracy_ok h ltac:(lra)) as [r Er].
  exists (fun _ => (ex_still, ex_still)), (ex_obs h), iso_id, (iso_trans (V3 0 0 1)), iso_id, 1, r. split; [ exact Er | split; [ reflexivity | ] ].
  intros i o ref Ho Hr. destruct (ex_obs_ok h i o Ho) as (s & ref' & Hs & Hr' & E1 & E2). rewrite E1, E2.
  destruct (ex_seen h d i s ref) as (A & _ & N); try assumption; try lra. split; [ exact A | exact N ].
Qed.
Lemma ex_verdict_near : exists k refs, fx k <> 0 /\ fy k <> 0 /\ (forall ref, In ref refs -> good_reference k ref) /\ List.length refs = 2%nat /\
  forall d, 0 < d -> exists (v : vision (list (correspondence vec2)) (list (correspondence vec2))) runs T C ps b,
    validationTool v runs k T C (Some (data_of ps)) = Ok b /\
    forall sel, chosen (sees_shown v) ps sel -> List.length sel = List.length refs /\
       forall i s ref, nth_error sel i = Some s -> nth_error refs i = Some ref ->
         checked_near d k ref (runs i) (target_from_tool (snd (fst s)) C T) (snd s) /\ ~ perfect_image k (fst ref) (snd s).
Proof.
  exists ex_k, ex_refs. split; [ cbn; lra | split; [ cbn; lra | split; [ exact ex_refs_good | split; [ reflexivity | ] ] ] ].
  intros d Hd. destruct (unit_square d Hd) as (_ & H0 & H1). pose proof (Rmin_r d 1) as H2. set (h := Rmin d 1) in *.
  destruct (ex_accuracy_ok h ltac:(lra)) as [r Er].
  assert (X : exists b, validationTool ex_eyes (fun _ => (ex_still, ex_still)) ex_k (iso_trans (V3 0 0 1)) iso_id (Some (data_of (ex_data h))) = Ok b).
  { unfold validationTool. destruct (validation_succeeds ex_eyes (ex_data h)) as [obs E]; [ intros p _; apply ex_quiet | ].
    rewrite E. cbn [bind]. apply validation_images in E. destruct E as (sel & Ch & ->). apply ex_chosen in Ch. subst sel. fold (ex_obs h). rewrite Er. cbn [bind]. eauto. }
  destruct X as [b Eb]. exists ex_eyes, (fun _ => (ex_still, ex_still)), (iso_trans (V3 0 0 1)), iso_id, (ex_data h), b. split; [ exact Eb | ].
  intros sel Ch. apply ex_chosen in Ch. subst sel. split; [ reflexivity | ]. intros i s ref Hs Hr.
  destruct (ex_seen h d i s ref) as (A & _ & N); try assumption; try lra. split; [ exact A | exact N ].
Qed.
