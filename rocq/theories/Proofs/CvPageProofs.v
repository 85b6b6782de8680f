(** What the texts of the example, of the pose estimation tool and of the intrinsic calibration tool say. *)
From Coq Require Import Reals ZArith Arith Lia Lra Ascii String List.
From Verif.Base Require Import Geom Outcome Matrix.
From Verif.Model Require Import Pose Covariance Solver HandEye Pnp BlockSolver MultiCamera Intrinsic DataSet ExampleTools CvTools CovReport ParamText Print PrintText ToolText.
From Verif.Spec Require Import CovarianceSpec PinHole ProjectionSpec ToolSpec PnpSpec IntrinsicSpec TextSpec ParamTextSpec UniqueSpec PrintTextSpec ToolTextSpec.
From Verif.Proofs Require Import GeomLemmas ListLemmas PnpProofs IntrinsicProofs CvToolProofs TextProofs ParamTextProofs PrintTextProofs ToolTextProofs ToolPageProofs RigPageProofs.
Import ListNotations.
Local Open Scope string_scope.

(** ** The example *)
Lemma example_page r : ordinary_result r -> page_of (exampleText r)
  [results_block (he_converged r) (he_initial_cost_per_obs r) (he_final_cost_per_obs r); blank_line;
   transform_block "WRIST TO CAMERA" "Wrist" "Camera" (he_camera_mount_to_camera r); blank_line;
   transform_block "BASE TO TARGET" "Base" "Target" (he_target_mount_to_target r); blank_line].
Proof.
  intros (A & B & C & D). unfold exampleText. next; [ apply results_page; assumption | ]. next; [ exact newline_page | ].
  next; [ apply transform_page; [ exact C | plain | plain | plain ] | ]. next; [ exact newline_page | ].
  next; [ apply transform_page; [ exact D | plain | plain | plain ] | exact newline_page ].
Qed.

(** ** solve_pnp *)
Lemma pnp_page {image features} (v : vision image features) cv u solve cov k img T r : solvePnpTool v cv u solve cov k img = Ok (T, r) -> honest solve ->
  ordinary_camera k -> ordinary_pose T -> ordinary_cost (pnp_initial_cost_per_obs r) -> ordinary_cost (pnp_final_cost_per_obs r) -> ordinary_pose (pnp_camera_to_target r) ->
  exists cs, sees v img cs /\ solveCVPnP cv k cs = Ok T /\
    page_of (pnpText k T r)
      [camera_block "Camera Intrinsics" k; blank_line; transform_block "OpenCV solvePNP" "Camera" "Target" T; blank_line;
       results_block (pnp_converged r) (pnp_initial_cost_per_obs r) (pnp_final_cost_per_obs r); blank_line;
       transform_block "RCT CAMERA TO TARGET" "Camera" "Target" (pnp_camera_to_target r); blank_line] /\
    ((forall c, In c cs -> in_front (iso_app (pnp_camera_to_target r) (in_target c))) ->
     pnp_final_cost_per_obs r = half_squares (flat_map (PnpSpec.pixel_error k (pnp_camera_to_target r)) cs) / INR (2 * List.length cs))%R.
Proof.
  intros E Ho Ok1 OT O1 O2 O3. destruct (pnp_tool v cv u solve cov k img T r E) as (cs & S & Cv & Op). exists cs. split; [ exact S | split; [ exact Cv | split ] ].
  - unfold pnpText. next; [ apply text_page, camera_page; [ plain | exact Ok1 ] | ]. next; [ exact newline_page | ].
    next; [ apply transform_page; [ exact OT | plain | plain | plain ] | ]. next; [ exact newline_page | ].
    next; [ apply results_page; assumption | ]. next; [ exact newline_page | ].
    next; [ apply transform_page; [ exact O3 | plain | plain | plain ] | exact newline_page ].
  - intros F. destruct (pnp_result2 (PnP2 k cs pnp_tool_guess "camera_to_target")) as (bl & Hb & K). destruct (K _ _ _ _ Op) as (_ & x & s & Hs & _ & Hx & _ & Hf & Hp).
    cbn [pnp_correspondences pnp_intr] in *. rewrite Hf. f_equal. pose proof (Ho bl (pnp_start (pnp_guess (PnP2 k cs pnp_tool_guess "camera_to_target")))) as H. rewrite Hs in H. rewrite H.
    f_equal. pose proof (f_equal (@List.length _) (Hb x)) as L. rewrite !map_length in L.
    clear -Hp F L. revert cs F L Hp. induction bl as [|f bl IH]; intros [|c cs] F L Hp; try discriminate; [ reflexivity | ]. cbn [flat_map]. f_equal.
    + apply (Hp f c 0%nat); [ reflexivity | reflexivity | apply F; left; reflexivity ].
    + apply IH; [ intros; apply F; right; assumption | cbn in L; lia | intros g d j; exact (Hp g d (S j)) ].
Qed.

(** ** intrinsic_calibration *)
Lemma intrinsic_label_lines p : ip_label_extr p = "pose" -> forall b l, In (b, l) (intrinsic_param_labels p) -> Forall one_line l.
Proof.
  intros E. unfold intrinsic_param_labels. generalize (seq 0 (List.length (ip_image_observations p))). intros idx. rewrite E.
  assert (G : forall idx m, (forall b l, In (b, l) m -> Forall one_line l) -> forall b l, In (b, l) (fold_left (fun labels i =>
    insert_key i (map (fun l => "pose" ++ Covariance.to_string i ++ "_" ++ l) ip_labels_isometry3d) labels) idx m) -> Forall one_line l).
  { clear. intros idx. induction idx as [|i idx IH]; intros m Hm; [ exact Hm | ]. cbn [fold_left]. apply IH. intros b l Hl.
    assert (K : forall A i (x : A) m b y, In (b, y) (insert_key i x m) -> (b, y) = (i, x) \/ In (b, y) m).
    { clear. intros A i x m. induction m as [|[c z] m IH]; cbn; intros b y H; [ destruct H as [H|[]]; left; congruence | ].
      destruct (Nat.eqb i c); destruct H as [H|H].
      - left. congruence.
      - right. right. exact H.
      - right. left. exact H.
      - destruct (IH _ _ H) as [K|K]; [ left; exact K | right; right; exact K ]. }
    destruct (K _ _ _ _ _ _ Hl) as [Q|Q]; [ | exact (Hm _ _ Q) ]. apply pair_equal_spec in Q as [_ ->]. apply Forall_forall. intros s0 H0. apply in_map_iff in H0 as (s & <- & Hs).
    apply one_line_app; [ plain | ]. apply one_line_app; [ | apply one_line_app; [ plain | ] ].
    - unfold Covariance.to_string, DecimalString.NilZero.string_of_uint. destruct (Nat.to_uint i); try apply uint_line. plain.
    - cbn in Hs. repeat destruct Hs as [<-|Hs]; try plain. destruct Hs. }
  apply G. cbn. intros b l [[= _ <-]|[]]. repeat constructor; discriminate.
Qed.

Lemma intrinsic_names u psolve pcov solve cov p r : optimizeIntrinsic u psolve pcov solve cov p = Ok r -> ip_label_extr p = "pose" -> Forall plain_names (correlation_coeffs (ir_covariance r)).
Proof.
  unfold optimizeIntrinsic. destruct (initial_poses _ _ _ _) as [[ps va]| |]; cbn [bind]; try discriminate. destruct (intrinsic_blocks _ _) as [bl| |]; cbn [bind]; try discriminate.
  cbv zeta. destruct (solve bl _) as [m s]. destruct (computeCovariance _ _ _ _ _) as [c| |] eqn:Ec; cbn [bind]; try discriminate.
  intros [= <-] E. cbn [ir_covariance]. exact (covariance_names _ _ _ _ _ _ Ec (intrinsic_label_lines p E)).
Qed.
Section IntrinsicPage.
  Context {image features size : Type} (v : vision image features) (size_of : image -> size) (cal : calibrate_camera size) (u : nat -> nat -> R).
  Context (psolve : pnp_solvers) (pcov : pnp_covs) (solve : block_solver) (cov : cov_oracle) (k : intrinsics) (images : list image) (poses : list iso).
  Context (to_string_f : R -> string) (std_sort : (named_param -> named_param -> bool) -> list named_param -> list named_param).
  Context (Hts : forall x, one_line (to_string_f x)) (Hsort : sort_contract std_sort).
  Lemma intrinsic_page cv r : intrinsicTool v size_of cal u psolve pcov solve cov k (Some (DS images poses)) = Ok (cv, r) -> honest_blocks solve ->
    ordinary_camera (fst cv) -> Forall ordinary_number (snd cv) -> ordinary_cost (ir_initial_cost_per_obs r) -> ordinary_cost (ir_final_cost_per_obs r) ->
    ordinary_camera (ir_intrinsics r) -> Forall ordinary_number (ir_distortions r) ->
    exists sel first rest K ds c1 c2 c3 c4 c5 lens, chosen (sees v) images sel /\ images = first :: rest /\
      cal (map (map in_target) (map snd sel)) (map (map in_image) (map snd sel)) (size_of first) (camera_matrix k) = Ok (K, ds) /\ firstn 5 ds = [c1; c2; c3; c4; c5] /\
      let p := IP (map snd sel) k "pose" in
      (forall failed, (forall i, In i failed -> (i < List.length sel)%nat /\ not_located u psolve pcov p i) ->
        page_of (intrinsicText to_string_f std_sort cv failed r)
          [title_block "OpenCV Calibration"; camera_block "OpenCV Intrinsics" (Intr (m00 K) (m11 K) (m02 K) (m12 K)); blank_line;
           lens_block "OpenCV Distortion" c1 c2 c3 c4 c5; blank_line;
           title_block "Calibration Complete"; results_block (ir_converged r) (ir_initial_cost_per_obs r) (ir_final_cost_per_obs r); blank_line;
           camera_block "RCT Intrinsics" (ir_intrinsics r); blank_line;
           lens_block "RCT Distortion" (d_k1 lens) (d_k2 lens) (d_p1 lens) (d_p2 lens) (d_k3 lens); blank_line;
           correlations_block (to_string_f (5 / 10)) (ir_covariance r)]) /\
      exists Ts : nat -> iso, let views := image_views p (seq 0 (List.length sel)) in
        (forall i x, In (i, x) views -> vz (iso_app (Ts i) (in_target x)) <> 0%R) ->
        ir_final_cost_per_obs r = (half_squares (flat_map (fun x => lens_error (ir_intrinsics r) lens (Ts (fst x)) (snd x)) views) / INR (2 * List.length views))%R.
  Proof.
    intros E Ho O1 O2 O3 O4 O5 O6. destruct (intrinsic_tool v size_of cal u psolve pcov solve cov k images poses cv r E) as (sel & first & rest & K & ds & Ch & Ei & Ec & L5 & Ecv & Op).
    cbv zeta in Ec, Op. destruct ds as [|c1 [|c2 [|c3 [|c4 [|c5 ds]]]]]; cbn in L5; try lia.
    pose proof (intrinsic_names _ _ _ _ _ _ _ Op eq_refl) as Nm.
    destruct (intrinsic_result_right u psolve pcov (IP (map snd sel) k "pose")) as (bl & Lb & Hb & Kr). destruct (Kr _ _ _ Op) as (_ & Loc & st & m & s & Hs & _ & _ & _ & _ & Ek & Ed & _ & Ef). clear Kr.
    cbn [ip_image_observations] in *. rewrite map_length in *.
    exists sel, first, rest, K, (c1 :: c2 :: c3 :: c4 :: c5 :: ds), c1, c2, c3, c4, c5, (lens_of (m (List.length sel))).
    split; [ exact Ch | ]. split; [ exact Ei | ]. split; [ exact Ec | ]. split; [ reflexivity | ]. cbv zeta. split.
    - intros failed Hf. assert (failed = []) as ->.
      { destruct failed as [|i failed]; [ reflexivity | exfalso ]. destruct (Hf i (or_introl eq_refl)) as [Hi N]. destruct (Loc i Hi) as [T Lo].
        exact (located_not _ _ _ _ _ _ Lo N). }
      unfold intrinsicText. cbv zeta. rewrite Ecv in O1, O2 |- *. cbn [fst snd firstn nth] in *. rewrite Ed in O6 |- *. cbv zeta in O6. cbv zeta. cbn [nth].
      next; [ apply title_page; plain | ]. next; [ apply text_page, camera_page; [ plain | exact O1 ] | ]. next; [ exact newline_page | ].
      next; [ apply text_page, lens_page; [ plain | exact O2 ] | ]. next; [ exact newline_page | ]. apply (tokens_page _ _ []); [ exact page_nil | ].
      next; [ apply title_page; plain | ]. next; [ apply results_page; assumption | ]. next; [ exact newline_page | ].
      next; [ apply text_page, camera_page; [ plain | exact O5 ] | ]. next; [ exact newline_page | ].
      next; [ apply text_page, lens_page; [ plain | exact O6 ] | ]. next; [ exact newline_page | ]. apply correlations_page; assumption.
    - exists (fun i => poseCalToEigen (read_pose m i)). intros Hz. rewrite Ef. f_equal. pose proof (Ho bl st) as H. rewrite Hs in H. rewrite H. f_equal.
      rewrite Ek. clear -Hb Hz Lb. set (V := image_views _ _) in *. clearbody V. revert V Hb Hz Lb. induction bl as [|b bl IH]; intros [|[i x] V] Hb Hz Lb; try discriminate; [ reflexivity | ].
      cbn [flat_map]. f_equal.
      + apply (Hb m 0%nat b i x); [ reflexivity | reflexivity | apply Hz; left; reflexivity ].
      + apply IH; [ intros m' j; exact (Hb m' (S j)) | intros j y Hy; apply Hz; right; exact Hy | cbn in Lb; lia ].
  Qed.
End IntrinsicPage.
