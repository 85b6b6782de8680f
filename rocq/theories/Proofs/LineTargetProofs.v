(** Proofs for targets whose points lie on a line. *)
From Coq Require Import Reals Arith List Lia Lra Permutation.
From Verif.Base Require Import Geom Outcome.
From Verif.Model Require Import Pose Covariance Solver HandEye Pnp MultiCamera BlockSolver Intrinsic Targets.
From Verif.Spec Require Import Frames PinHole HomographySpec PnpSpec UniqueSpec MultiSpec SameDataSpec DeterminedSpec ToolsAgreeSpec
  TargetSpec LineTargetSpec.
From Verif.Spec Require IntrinsicSpec LensChoicesSpec.
From Verif.Proofs Require Import GeomLemmas UniqueLemmas UniqueProofs PnpProofs SameDataProofs DeterminedExample SimHandEyeProofs
  ToolsAgreeProofs TargetProofs.
Import ListNotations.
Local Open Scope R_scope.

(** ** Turns about a line *)
Section Turn.
  Variables (q w : vec3) (a : R).
  Hypothesis U : dot w w = 1.
  Lemma turn_rigid : rigid (turn_about_line q w a).
  Proof. apply aa_matrix_rot, U. Qed.
  Lemma turn_fixes x : on_line q w x -> iso_app (turn_about_line q w a) x = x.
  Proof.
    intros [s ->]. unfold turn_about_line, iso_app. cbn [lin tr]. rewrite rodrigues, rodrigues.
    generalize (cos a) (sin a). intros c d. unfold dot in *. destruct w as [w1 w2 w3], q as [q1 q2 q3]. geo_unfold. cbn [vx vy vz] in *.
    assert (E : w1 * w1 = 1 - w2 * w2 - w3 * w3) by lra.
    f_equal; ring_simplify; ring [E] || nra.
  Qed.
  Lemma turn_none : turn_about_line q w a = iso_id <-> cos a = 1.
  Proof.
    split; intros H.
    - assert (L : aa_matrix a w = I3) by (exact (f_equal lin H)).
      pose proof (HandEyeProofs.trace_aa a w U) as T. rewrite L in T. unfold trace, I3 in T. cbn [m00 m11 m22] in T. lra.
    - assert (S : sin a = 0).
      { pose proof (sin2_cos2 a) as E. rewrite H in E. unfold Rsqr in E. apply Rsqr_0_uniq. unfold Rsqr. lra. }
      assert (M : aa_matrix a w = I3).
      { unfold aa_matrix, I3. rewrite H, S. f_equal; ring. }
      unfold turn_about_line. rewrite M, mvec_I. unfold iso_id. f_equal. geo_unfold. f_equal; ring.
  Qed.
  Lemma turn_app T x : on_line q w x -> iso_app (iso_mul T (turn_about_line q w a)) x = iso_app T x.
  Proof. intros H. rewrite iso_app_mul, (turn_fixes x H). reflexivity. Qed.
End Turn.

(** Points on a line, or three that are not. *)
Lemma on_line_triangle q w x y z : on_line q w x -> on_line q w y -> on_line q w z -> ~ triangle x y z.
Proof.
  intros [r ->] [s ->] [t ->] N. apply N. geo_unfold. f_equal; ring.
Qed.
Lemma line_or_triangle pts : ~ not_on_a_line pts <-> exists q w, dot w w = 1 /\ all_on_line q w pts.
Proof.
  split.
  - intros N. destruct pts as [|x pts].
    + exists vzero, unitX. split; [ unfold dot, unitX; cbn; ring | intros x [] ].
    + assert (D : forall l : list vec3, (forall y, In y l -> y = x) \/ exists y, In y l /\ y <> x).
      { induction l as [|y l IH]; [ left; intros y [] | ].
        destruct (Req_EM_T (dot (vsub y x) (vsub y x)) 0) as [Z|Z].
        - assert (y = x).
          { destruct x as [x1 x2 x3], y as [y1 y2 y3]. unfold dot, vsub in Z. cbn [vx vy vz] in Z.
            apply vec3_ext; cbn [vx vy vz]; pose proof (Rle_0_sqr (y1 - x1)); pose proof (Rle_0_sqr (y2 - x2)); pose proof (Rle_0_sqr (y3 - x3));
              unfold Rsqr in *; apply Rminus_diag_uniq, Rsqr_0_uniq; unfold Rsqr; lra. }
          destruct IH as [A|(v & Iv & Nv)]; [ left | right; exists v; split; [ right | ]; assumption ].
          intros v [<-|Iv]; auto.
        - right. exists y. split; [ left; reflexivity | ]. intros ->. apply Z. unfold dot, vsub; cbn; ring. }
      destruct (D (x :: pts)) as [A|(y & Iy & Ny)].
      * exists x, unitX. split; [ unfold dot, unitX; cbn; ring | ]. intros v Iv. exists 0. rewrite (A v Iv).
        geo_unfold. destruct x; cbn; f_equal; ring.
      * set (d := vsub y x). assert (Nd : 0 < dot d d).
        { destruct (dot_pos d) as [P|Z]; [ exact P | exfalso ]. symmetry in Z. apply dot_zero in Z. apply Ny.
          unfold d in Z. pose proof (f_equal vx Z) as Z1. pose proof (f_equal vy Z) as Z2. pose proof (f_equal vz Z) as Z3.
          unfold vsub, vzero in *. cbn [vx vy vz] in *. apply vec3_ext; lra. }
        set (n := sqrt (dot d d)). assert (Pn : 0 < n) by (apply sqrt_lt_R0, Nd).
        assert (En : n * n = dot d d) by (apply sqrt_sqrt; lra).
        exists x, (vscale (/ n) d). split.
        { replace (dot (vscale (/ n) d) (vscale (/ n) d)) with (/ n * / n * dot d d) by (unfold dot, vscale; cbn; ring).
          rewrite <- En. field. lra. }
        intros v Iv. assert (C : cross d (vsub v x) = vzero).
        { destruct (Req_EM_T (dot (cross d (vsub v x)) (cross d (vsub v x))) 0) as [Z|Z].
          - destruct (cross d (vsub v x)) as [c1 c2 c3]. unfold dot in Z. cbn [vx vy vz] in Z.
            apply vec3_ext; cbn [vx vy vz vzero]; pose proof (Rle_0_sqr c1); pose proof (Rle_0_sqr c2); pose proof (Rle_0_sqr c3);
              unfold Rsqr in *; apply Rsqr_0_uniq; unfold Rsqr; lra.
          - exfalso. apply N. exists x, y, v. split; [ left; reflexivity | split; [ exact Iy | split; [ exact Iv | ] ] ].
            unfold triangle. fold d. intros E. apply Z. rewrite E. unfold dot, vzero; cbn; ring. }
        assert (C' : cross (vsub v x) d = vzero).
        { pose proof (f_equal vx C) as C1. pose proof (f_equal vy C) as C2. pose proof (f_equal vz C) as C3.
          unfold cross, vzero in *. cbn [vx vy vz] in *. apply vec3_ext; cbn [vx vy vz]; lra. }
        pose proof (parallel_scale _ _ C') as Q. exists (dot d (vsub v x) / n).
        assert (V : vsub v x = vscale (dot d (vsub v x) / (dot d d)) d).
        { pose proof (f_equal vx Q) as Q1. pose proof (f_equal vy Q) as Q2. pose proof (f_equal vz Q) as Q3.
          set (e := dot d (vsub v x)) in *. set (f := dot d d) in *. unfold vscale in *. cbn [vx vy vz] in *.
          apply vec3_ext; cbn [vx vy vz]; apply (Rmult_eq_reg_l f); try lra;
            [ rewrite Q1 | rewrite Q2 | rewrite Q3 ]; field; lra. }
        set (e := dot d (vsub v x)) in *. rewrite <- En in V.
        pose proof (f_equal vx V) as Q1. pose proof (f_equal vy V) as Q2. pose proof (f_equal vz V) as Q3.
        unfold vscale, vadd, vsub in *. cbn [vx vy vz] in *.
        assert (K : forall g, e / n * (/ n * g) = e / (n * n) * g) by (intros g; field; lra).
        apply vec3_ext; cbn [vx vy vz]; rewrite K; lra.
  - intros (q & w & U & A) (x & y & z & Ix & Iy & Iz & Tr). exact (on_line_triangle q w x y z (A x Ix) (A y Iy) (A z Iz) Tr).
Qed.

(** Errors *)
Lemma flat_same {A} (f g : A -> list R) l : (forall x, In x l -> f x = g x) -> half_squares (flat_map f l) = half_squares (flat_map g l).
Proof.
  intros H. f_equal. induction l as [|x l IH]; [ reflexivity | ]. cbn [flat_map].
  rewrite (H x (or_introl eq_refl)). f_equal. apply IH. intros y Hy. apply H. right; exact Hy.
Qed.

(** ** One picture *)
Section One.
  Variables (q w : vec3) (a : R).
  Hypothesis U : dot w w = 1.
  Let G := turn_about_line q w a.
  Lemma in_line {I} (cs : list (correspondence I)) c : all_on_line q w (map in_target cs) -> In c cs -> on_line q w (in_target c).
  Proof. intros A Hc. apply A, in_map, Hc. Qed.

  Lemma line_pose_error k cs T : all_on_line q w (map in_target cs) -> pose_error k cs (iso_mul T G) = pose_error k cs T.
  Proof.
    intros A. apply flat_same. intros c Hc. unfold pixel_error, G. rewrite (turn_app q w a U T _ (in_line cs c A Hc)). reflexivity.
  Qed.
  Lemma line_pose_error3 cs T : all_on_line q w (map in_target cs) -> pose_error3 cs (iso_mul T G) = pose_error3 cs T.
  Proof.
    intros A. apply flat_same. intros c Hc. unfold point_error, G. rewrite (turn_app q w a U T _ (in_line cs c A Hc)). reflexivity.
  Qed.
  Lemma line_best_pose k cs T : all_on_line q w (map in_target cs) -> best_pose k cs T -> best_pose k cs (iso_mul T G).
  Proof.
    intros A (RT & F & B). split; [ apply rigid_mul; [ exact RT | exact (turn_rigid q w a U) ] | split ].
    - intros c Hc. unfold G. rewrite (turn_app q w a U T _ (in_line cs c A Hc)). apply F, Hc.
    - intros T' R' F'. rewrite (line_pose_error k cs T A). apply B; assumption.
  Qed.
  Lemma line_best_pose3 cs T : all_on_line q w (map in_target cs) -> best_pose3 cs T -> best_pose3 cs (iso_mul T G).
  Proof.
    intros A (RT & B). split; [ apply rigid_mul; [ exact RT | exact (turn_rigid q w a U) ] | ].
    intros T' R'. rewrite (line_pose_error3 cs T A). apply B; assumption.
  Qed.
  Lemma line_perfect k cs T : all_on_line q w (map in_target cs) -> perfect_image k T cs -> perfect_image k (iso_mul T G) cs.
  Proof. intros A P c Hc. unfold G. rewrite (turn_app q w a U T _ (in_line cs c A Hc)). apply P, Hc. Qed.
  Lemma line_perfect3 cs T : all_on_line q w (map in_target cs) -> perfect_points T cs -> perfect_points (iso_mul T G) cs.
  Proof. intros A P c Hc. unfold G. rewrite (turn_app q w a U T _ (in_line cs c A Hc)). apply P, Hc. Qed.

  Lemma line_pnp2 u solve cov p r u' solve' cov' p' r' :
    honest solve -> optimizePnP u solve cov p = Ok r -> all_in_front (pnp_camera_to_target r) (pnp_correspondences p) ->
    all_on_line q w (map in_target (pnp_correspondences p)) ->
    honest solve' -> optimizePnP u' solve' cov' p' = Ok r' ->
    pnp_intr p' = pnp_intr p -> pnp_correspondences p' = pnp_correspondences p ->
    pnp_camera_to_target r' = iso_mul (pnp_camera_to_target r) G ->
    pnp_final_cost_per_obs r' = pnp_final_cost_per_obs r.
  Proof.
    intros Ho E F A Ho' E' Ki Kc Kt. rewrite (pnp_error2 _ _ _ _ _ Ho E F).
    assert (F' : all_in_front (pnp_camera_to_target r') (pnp_correspondences p')).
    { rewrite Kc, Kt. intros c Hc. unfold G. rewrite (turn_app q w a U _ _ (in_line _ c A Hc)). apply F, Hc. }
    rewrite (pnp_error2 _ _ _ _ _ Ho' E' F'), Ki, Kc, Kt, (line_pose_error _ _ _ A). reflexivity.
  Qed.
  Lemma line_pnp3 u solve cov p r u' solve' cov' p' r' :
    honest solve -> optimizePnP3D u solve cov p = Ok r ->
    all_on_line q w (map in_target (pnp3_correspondences p)) ->
    honest solve' -> optimizePnP3D u' solve' cov' p' = Ok r' ->
    pnp3_correspondences p' = pnp3_correspondences p ->
    pnp_camera_to_target r' = iso_mul (pnp_camera_to_target r) G ->
    pnp_final_cost_per_obs r' = pnp_final_cost_per_obs r.
  Proof.
    intros Ho E A Ho' E' Kc Kt.
    rewrite (pnp_error3 _ _ _ _ _ Ho E), (pnp_error3 _ _ _ _ _ Ho' E'), Kc, Kt, (line_pose_error3 _ _ A). reflexivity.
  Qed.
End One.

(** ** Hand-eye calibration *)
Lemma tic_right X A B Z G : target_in_camera X A B (iso_mul Z G) = iso_mul (target_in_camera X A B Z) G.
Proof. unfold target_in_camera. rewrite !iso_mul_assoc. reflexivity. Qed.
Section Hand_eye.
  Variables (q w : vec3) (a : R).
  Hypothesis U : dot w w = 1.
  Let G := turn_about_line q w a.
  Lemma line_seen {I} (ss : list (sighting I)) X Z s : all_on_line q w (map point ss) -> In s ss ->
    seen_at X (iso_mul Z G) s = seen_at X Z s.
  Proof. intros A Hs. unfold seen_at. rewrite tic_right. apply (turn_app q w a U). apply A, in_map, Hs. Qed.
  Lemma line_image_error k ss X Z : all_on_line q w (map point ss) -> image_error k ss X (iso_mul Z G) = image_error k ss X Z.
  Proof. intros A. apply flat_same. intros s Hs. rewrite (line_seen ss X Z s A Hs). reflexivity. Qed.
  Lemma line_space_error ss X Z : all_on_line q w (map point ss) -> space_error ss X (iso_mul Z G) = space_error ss X Z.
  Proof. intros A. apply flat_same. intros s Hs. rewrite (line_seen ss X Z s A Hs). reflexivity. Qed.
  Lemma line_in_view ss X Z : all_on_line q w (map point ss) -> in_view ss X Z -> in_view ss X (iso_mul Z G).
  Proof.
    intros A (RX & RZ & V). split; [ exact RX | split; [ apply rigid_mul; [ exact RZ | exact (turn_rigid q w a U) ] | ] ].
    intros s Hs. rewrite (line_seen ss X Z s A Hs). apply V, Hs.
  Qed.
  Lemma line_best_images k ss X Z : all_on_line q w (map point ss) -> best_for_images k ss X Z -> best_for_images k ss X (iso_mul Z G).
  Proof.
    intros A [V B]. split; [ apply line_in_view; assumption | ]. intros X' Z' V'. rewrite (line_image_error k ss X Z A). apply B, V'.
  Qed.
  Lemma line_best_space ss X Z : all_on_line q w (map point ss) -> best_in_space ss X Z -> best_in_space ss X (iso_mul Z G).
  Proof.
    intros A (RX & RZ & B). split; [ exact RX | split; [ apply rigid_mul; [ exact RZ | exact (turn_rigid q w a U) ] | ] ].
    intros X' Z' RX' RZ'. rewrite (line_space_error ss X Z A). apply B; assumption.
  Qed.
  Lemma line_he2 u solve cov p r u' solve' cov' p' r' :
    honest solve -> optimize2D3D u solve cov p = Ok r -> plain_obs (h2_observations p) ->
    in_view (sightings (h2_observations p)) (he_camera_mount_to_camera r) (he_target_mount_to_target r) ->
    all_on_line q w (map point (sightings (h2_observations p))) ->
    honest solve' -> optimize2D3D u' solve' cov' p' = Ok r' ->
    h2_intr p' = h2_intr p -> h2_observations p' = h2_observations p ->
    he_camera_mount_to_camera r' = he_camera_mount_to_camera r ->
    he_target_mount_to_target r' = iso_mul (he_target_mount_to_target r) G ->
    he_final_cost_per_obs r' = he_final_cost_per_obs r.
  Proof.
    intros Ho E P V A Ho' E' Ki Kc Kx Kz. rewrite (he_error2 _ _ _ _ _ Ho E P V).
    rewrite (he_error2 _ _ _ _ _ Ho' E'), Ki, Kc, Kx, Kz, (line_image_error _ _ _ _ A).
    - reflexivity.
    - rewrite Kc. exact P.
    - rewrite Kc, Kx, Kz. apply line_in_view; assumption.
  Qed.
  Lemma line_he3 u solve cov p r u' solve' cov' p' r' :
    honest solve -> optimize3D3D u solve cov p = Ok r -> plain_obs (h3_observations p) ->
    rigid (he_camera_mount_to_camera r) ->
    all_on_line q w (map point (sightings (h3_observations p))) ->
    honest solve' -> optimize3D3D u' solve' cov' p' = Ok r' ->
    h3_observations p' = h3_observations p ->
    he_camera_mount_to_camera r' = he_camera_mount_to_camera r ->
    he_target_mount_to_target r' = iso_mul (he_target_mount_to_target r) G ->
    he_final_cost_per_obs r' = he_final_cost_per_obs r.
  Proof.
    intros Ho E P V A Ho' E' Kc Kx Kz. rewrite (he_error3 _ _ _ _ _ Ho E P V).
    rewrite (he_error3 _ _ _ _ _ Ho' E'), Kc, Kx, Kz, (line_space_error _ _ _ A).
    - reflexivity.
    - rewrite Kc. exact P.
    - rewrite Kx. exact V.
  Qed.
End Hand_eye.

(** ** Several cameras *)
Section Rig.
  Variables (q w : nat -> vec3) (a : nat -> R) (vs : list view).
  Hypothesis U : forall i, dot (w i) (w i) = 1.
  Hypothesis L : forall c i x, In (c, i, x) vs -> on_line (q i) (w i) (in_target x).
  Let G i := turn_about_line (q i) (w i) (a i).
  Let turned (T : poses) : poses := fun c i => iso_mul (T c i) (G i).
  Lemma line_rig_error k T : rig_error k vs (turned T) = rig_error k vs T.
  Proof.
    apply flat_same. intros [[c i] x] Hv. unfold pixel_error, turned, G. rewrite (turn_app _ _ _ (U i) _ _ (L c i x Hv)). reflexivity.
  Qed.
  Lemma line_rig_view T : rig_in_view vs T -> rig_in_view vs (turned T).
  Proof.
    intros V c i x Hv. destruct (V c i x Hv) as [RT P]. split.
    - apply rigid_mul; [ exact RT | apply turn_rigid, U ].
    - unfold turned, G. rewrite (turn_app _ _ _ (U i) _ _ (L c i x Hv)). exact P.
  Qed.
  Lemma line_best_of (family : poses -> Prop) k T : family (turned T) -> best_of family k vs T -> best_of family k vs (turned T).
  Proof.
    intros F (_ & V & B). split; [ exact F | split; [ apply line_rig_view, V | ] ].
    intros T' F' V'. rewrite line_rig_error. apply B; assumption.
  Qed.
  Lemma line_targets n k T : best_of (cameras_and_targets n) k vs T -> best_of (cameras_and_targets n) k vs (turned T).
  Proof.
    intros B. apply line_best_of; [ | exact B ]. destruct B as ((C & D & RC & RD & E) & _).
    exists C, (fun i => iso_mul (D i) (G i)). split; [ exact RC | split ].
    - intros i. apply rigid_mul; [ apply RD | apply turn_rigid, U ].
    - intros c i Hc. unfold turned. rewrite (E c i Hc), iso_mul_assoc. reflexivity.
  Qed.
End Rig.
Section Rigs.
  Variables (q w : vec3) (a : R) (vs : list view).
  Hypothesis U : dot w w = 1.
  Hypothesis L : all_on_line q w (map (fun v => in_target (snd v)) vs).
  Let G := turn_about_line q w a.
  Let turned (T : poses) : poses := fun c i => iso_mul (T c i) G.
  Lemma rig_on_line c i x : In (c, i, x) vs -> on_line q w (in_target x).
  Proof. intros H. apply L. exact (in_map (fun v : view => in_target (snd v)) vs _ H). Qed.
  Lemma line_wrist n wrist k T : best_of (cameras_and_wrist n wrist) k vs T -> best_of (cameras_and_wrist n wrist) k vs (turned T).
  Proof.
    intros B. apply (line_best_of (fun _ => q) (fun _ => w) (fun _ => a) vs (fun _ => U) rig_on_line); [ | exact B ].
    destruct B as ((C & Z & RC & RZ & E) & _).
    exists C, (iso_mul Z G). split; [ exact RC | split ].
    - apply rigid_mul; [ exact RZ | exact (turn_rigid q w a U) ].
    - intros c i Hc. rewrite (E c i Hc), !iso_mul_assoc. reflexivity.
  Qed.
  Lemma line_rig n cameras wrist k T : best_of (rig_and_wrist n cameras wrist) k vs T -> best_of (rig_and_wrist n cameras wrist) k vs (turned T).
  Proof.
    intros B. apply (line_best_of (fun _ => q) (fun _ => w) (fun _ => a) vs (fun _ => U) rig_on_line); [ | exact B ].
    destruct B as ((C & Z & RC & RZ & E) & _).
    exists C, (iso_mul Z G). split; [ exact RC | split ].
    - apply rigid_mul; [ exact RZ | exact (turn_rigid q w a U) ].
    - intros c i Hc. rewrite (E c i Hc), !iso_mul_assoc. reflexivity.
  Qed.
  Lemma line_known n cameras k T : best_of (known_cameras n cameras) k vs T -> best_of (known_cameras n cameras) k vs (turned T).
  Proof.
    intros B. apply (line_best_of (fun _ => q) (fun _ => w) (fun _ => a) vs (fun _ => U) rig_on_line); [ | exact B ].
    destruct B as ((Z & RZ & E) & _).
    exists (iso_mul Z G). split.
    - apply rigid_mul; [ exact RZ | exact (turn_rigid q w a U) ].
    - intros c i Hc. rewrite (E c i Hc), !iso_mul_assoc. reflexivity.
  Qed.
End Rigs.

(** ** A camera with a lens *)
Section Lens.
  Variables (q w : nat -> vec3) (a : nat -> R) (p : intrinsic_problem).
  Hypothesis U : forall i, dot (w i) (w i) = 1.
  Hypothesis L : forall i, (i < List.length (ip_image_observations p))%nat ->
    all_on_line (q i) (w i) (map in_target (LensChoicesSpec.picture p i)).
  Let G i := turn_about_line (q i) (w i) (a i).
  Lemma line_lens_sum k d T : LensChoicesSpec.lens_sum p k d (fun i => iso_mul (T i) (G i)) = LensChoicesSpec.lens_sum p k d T.
  Proof.
    unfold LensChoicesSpec.lens_sum. f_equal. rewrite !flat_map_concat_map. f_equal. apply map_ext_in. intros i Hi.
    apply in_seq in Hi. rewrite !flat_map_concat_map. f_equal. apply map_ext_in. intros c Hc.
    unfold IntrinsicSpec.lens_error, G. rewrite (turn_app _ _ _ (U i)); [ reflexivity | ].
    exact (in_line _ _ _ _ (L i (proj2 Hi)) Hc).
  Qed.
  Lemma line_lens k d T : LensChoicesSpec.best_lens p k d T -> LensChoicesSpec.best_lens p k d (fun i => iso_mul (T i) (G i)).
  Proof.
    intros [V B]. split.
    - intros i Hi. destruct (V i Hi) as [RT P]. split; [ apply rigid_mul; [ exact RT | apply turn_rigid, U ] | ].
      intros c Hc. unfold G. rewrite (turn_app _ _ _ (U i)); [ apply P, Hc | ]. exact (in_line _ _ _ _ (L i Hi) Hc).
    - intros k' d' T' V'. rewrite line_lens_sum. apply B, V'.
  Qed.
End Lens.

(** ** When a pose is determined *)
Lemma half_turn_moves q w T : dot w w = 1 -> rigid T -> iso_mul T (turn_about_line q w PI) <> T.
Proof.
  intros U RT E. assert (E' : iso_mul T (turn_about_line q w PI) = iso_mul T iso_id) by (rewrite E, iso_mul_id_r; reflexivity).
  apply (cancel_l _ _ _ RT) in E'. apply (turn_none q w PI U) in E'. rewrite cos_PI in E'. lra.
Qed.
Lemma perfect_error3 cs T : perfect_points T cs -> pose_error3 cs T = 0.
Proof.
  intros P. unfold pose_error3. apply half_squares_all_zero. intros e He. apply in_flat_map in He as (c & Hc & He).
  unfold point_error in He. rewrite (P c Hc) in He. cbn [In] in He. destruct He as [<-|[<-|[<-|[]]]]; lra.
Qed.
Lemma perfect_error2 k cs T : perfect_image k T cs -> pose_error k cs T = 0.
Proof.
  intros P. unfold pose_error. apply half_squares_all_zero. intros e He. apply in_flat_map in He as (c & Hc & He).
  unfold pixel_error in He. rewrite (proj2 (P c Hc)) in He. cbn [In] in He. destruct He as [<-|[<-|[]]]; lra.
Qed.
Lemma only_pose3_iff cs T : rigid T -> perfect_points T cs -> (only_pose3 cs T <-> not_on_a_line (map in_target cs)).
Proof.
  intros RT P. split.
  - intros O. destruct (Classical_Prop.classic (not_on_a_line (map in_target cs))) as [Y|N]; [ exact Y | exfalso ].
    apply line_or_triangle in N as (q & w & U & A). apply (half_turn_moves q w T U RT).
    apply O; [ apply rigid_mul; [ exact RT | apply turn_rigid, U ] | ].
    rewrite (line_pose_error3 q w PI U cs T A). apply perfect_error3, P.
  - intros NL T' R' Z. apply (points_pose _ _ cs); auto. intros c Hc.
    assert (Q : forall e, In e (point_error T' c) -> e = 0).
    { intros e He. apply (half_squares_zero _ Z). apply in_flat_map. exists c. auto. }
    unfold point_error in Q. rewrite (P c Hc) in Q.
    pose proof (Q _ (or_introl eq_refl)). pose proof (Q _ (or_intror (or_introl eq_refl))).
    pose proof (Q _ (or_intror (or_intror (or_introl eq_refl)))).
    apply vec3_ext; lra.
Qed.
Lemma line_undetermined k cs T : rigid T -> perfect_image k T cs -> ~ not_on_a_line (map in_target cs) -> ~ only_pose k cs T.
Proof.
  intros RT P N O. apply line_or_triangle in N as (q & w & U & A). apply (half_turn_moves q w T U RT).
  pose proof (line_perfect q w PI U k cs T A P) as P'.
  apply O; [ apply rigid_mul; [ exact RT | apply turn_rigid, U ] | | apply perfect_error2, P' ].
  intros c Hc. apply P', Hc.
Qed.
Lemma flat_determined k cs T : rigid T -> ~ edge_on T -> fx k <> 0 -> fy k <> 0 -> perfect_image k T cs ->
  four_flat_points (map in_target cs) -> only_pose k cs T.
Proof.
  intros RT NE Fx Fy P FF T' R' F Z. apply (image_pose k _ _ cs); auto. intros c Hc.
  destruct (P c Hc) as [F1 I1]. split; [ apply front_pos, F, Hc | split; [ apply front_pos, F1 | ] ].
  assert (Q : forall e, In e (pixel_error k T' c) -> e = 0).
  { intros e He. apply (half_squares_zero _ Z). apply in_flat_map. exists c. auto. }
  unfold pixel_error in Q. rewrite I1 in Q.
  pose proof (Q _ (or_introl eq_refl)). pose proof (Q _ (or_intror (or_introl eq_refl))).
  apply vec2_ext; lra.
Qed.

(** ** Circle grids *)
Lemma in_points t x : In x (createPoints t) -> exists r c, (r < cg_rows t)%nat /\ (c < cg_cols t)%nat /\
  x = grid_point (cg_rows t) (cg_spacing t) r c.
Proof.
  unfold createPoints. intros H. apply in_flat_map in H as (i & Hi & H). apply in_map_iff in H as (j & <- & Hj).
  apply in_seq in Hi. apply in_seq in Hj. exists (i - 1)%nat, j. split; [ lia | split; [ lia | ] ].
  unfold grid_point. f_equal. f_equal. f_equal. lia.
Qed.
Lemma point_in t r c : (r < cg_rows t)%nat -> (c < cg_cols t)%nat -> In (grid_point (cg_rows t) (cg_spacing t) r c) (createPoints t).
Proof. intros Hr Hc. apply (nth_error_In _ (r * cg_cols t + c)). apply points_nth; assumption. Qed.

Lemma grid_determines t : full_grid t -> four_flat_points (createPoints t).
Proof.
  intros (Hr & Hc & Hs).
  exists (grid_point (cg_rows t) (cg_spacing t) 0 0), (grid_point (cg_rows t) (cg_spacing t) 0 1),
    (grid_point (cg_rows t) (cg_spacing t) 1 1), (grid_point (cg_rows t) (cg_spacing t) 1 0).
  do 4 (split; [ apply point_in; lia | ]). do 4 (split; [ reflexivity | ]).
  assert (E : INR (cg_rows t - 1 - 0) = INR (cg_rows t - 1 - 1) + 1).
  { rewrite <- S_INR. f_equal. lia. }
  assert (Q : cg_spacing t * cg_spacing t <> 0) by (apply Rmult_integral_contrapositive; auto).
  unfold general_position, not_collinear, grid_point. cbn [vx vy vz]. rewrite E. change (INR 0) with 0. change (INR 1) with 1.
  repeat split; intros Z; apply Q; lra.
Qed.
Lemma poor_grid_line t : ~ full_grid t -> exists q w, dot w w = 1 /\ all_on_line q w (createPoints t).
Proof.
  intros N. assert (D : (cg_rows t <= 1)%nat \/ (cg_cols t <= 1)%nat \/ cg_spacing t = 0).
  { destruct (le_lt_dec (cg_rows t) 1) as [A|A]; [ left; exact A | right ].
    destruct (le_lt_dec (cg_cols t) 1) as [B|B]; [ left; exact B | right ].
    destruct (Req_EM_T (cg_spacing t) 0) as [C|C]; [ exact C | ]. exfalso. apply N. split; [ lia | split; [ lia | exact C ] ]. }
  destruct D as [D|[D|D]].
  - exists vzero, unitX. split; [ unfold dot, unitX; cbn; ring | ]. intros x H. apply in_points in H as (r & c & Hr & Hc & ->).
    exists (INR c * cg_spacing t). unfold grid_point. replace (cg_rows t - 1 - r)%nat with 0%nat by lia. change (INR 0) with 0.
    unfold vadd, vscale, vzero, unitX. cbn [vx vy vz]. f_equal; ring.
  - exists vzero, unitY. split; [ unfold dot, unitY; cbn; ring | ]. intros x H. apply in_points in H as (r & c & Hr & Hc & ->).
    exists (INR (cg_rows t - 1 - r) * cg_spacing t). unfold grid_point. replace c with 0%nat by lia. change (INR 0) with 0.
    unfold vadd, vscale, vzero, unitY. cbn [vx vy vz]. f_equal; ring.
  - exists vzero, unitX. split; [ unfold dot, unitX; cbn; ring | ]. intros x H. apply in_points in H as (r & c & Hr & Hc & ->).
    exists 0. unfold grid_point. rewrite D. unfold vadd, vscale, vzero, unitX. cbn [vx vy vz]. f_equal; ring.
Qed.
Lemma grid_pose_iff k t cs T : map in_target cs = createPoints t -> rigid T -> ~ edge_on T -> fx k <> 0 -> fy k <> 0 ->
  perfect_image k T cs -> (only_pose k cs T <-> full_grid t).
Proof.
  intros M RT NE Fx Fy P. split.
  - intros O. destruct (Classical_Prop.classic (full_grid t)) as [Y|N]; [ exact Y | exfalso ].
    apply (line_undetermined k cs T RT P); [ | exact O ]. apply line_or_triangle. rewrite M. apply poor_grid_line, N.
  - intros F. apply flat_determined; try assumption. rewrite M. apply grid_determines, F.
Qed.
Lemma grid_pose3_iff t cs T : map in_target cs = createPoints t -> rigid T -> perfect_points T cs ->
  (only_pose3 cs T <-> full_grid t).
Proof.
  intros M RT P. rewrite (only_pose3_iff cs T RT P), M. split.
  - intros NL. destruct (Classical_Prop.classic (full_grid t)) as [Y|N]; [ exact Y | exfalso ].
    apply poor_grid_line in N. apply line_or_triangle in N. apply N, NL.
  - intros F. destruct (grid_determines t F) as (x & y & z & v & Ix & Iy & Iz & _ & _ & _ & _ & _ & GP & _).
    exists x, y, z. split; [ exact Ix | split; [ exact Iy | split; [ exact Iz | ] ] ]. intros E. apply GP.
    pose proof (f_equal vz E) as E3. unfold cross, vsub, vzero in E3. cbn [vx vy vz] in E3. lra.
Qed.
