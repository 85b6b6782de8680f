(** Concrete cases that meet the hypotheses of theorems, for the examples of several properties. *)
From Coq Require Import Reals ZArith Lia Lra String List.
From Verif.Base Require Import Geom Outcome Matrix.
From Verif.Model Require Import KinematicExample Pose Covariance Solver HandEye Projection Pnp IntrinsicValidation DhChain LocalParam Kinematic Yaml Serialization Loaders DataSet Collector Equality.
From Verif.Spec Require Import PinHole Frames ProjectionSpec KinSpec KinReport ValidationSpec YamlSpec LoaderSpec EqualitySpec DataSetSpec CollectorSpec.
From Verif.Proofs Require Import GeomLemmas HandEyeProofs ProjectionProofs PnpProofs IntrinsicValidationProofs DhProofs KinematicCall KinRunProofs YamlProofs LoaderProofs InterruptProofs CollectorProofs MultiCameraProofs.
Import ListNotations.
Local Open Scope R_scope.

(** ** C05, C06: a 3D-3D problem *)
Definition ex_he3 : he_problem3D3D :=
  HEP3 [Obs [Corr (V3 0 0 1) (V3 0 0 0); Corr (V3 (1/10) 0 1) (V3 (1/10) 0 0)] turned turned] (iso_trans (V3 0 0 1)) iso_id default_he_labels.
Lemma ex_he3_accepted u solve : exists r, optimize3D3D u solve ex_cov_oracle ex_he3 = Ok r.
Proof. apply accept3; try reflexivity; [ apply ex_oracle_lists | apply ex_oracle_sym | cbn; discriminate ]. Qed.
Lemma ex_he3_plain : plain_pose (h3_camera_guess ex_he3) /\ plain_pose (h3_target_guess ex_he3) /\
  forall o, In o (h3_observations ex_he3) -> plain_pose (to_camera_mount o) /\ plain_pose (to_target_mount o).
Proof. split; [ apply (plain_id_tr vzero) | split; [ apply plain_id_tr | ] ]. intros o [<- | []]. split; apply turned_plain. Qed.
(** A 2D-3D problem with the target behind the camera *)
Definition ex_behind : he_problem2D3D :=
  HEP2 [ex_obs] (Intr 500 500 320 240) (iso_trans (V3 0 0 (-1))) iso_id default_he_labels.
Lemma ex_behind_rejected u solve : optimize2D3D u solve ex_cov_oracle ex_behind = Throw RuntimeError.
Proof.
  apply reject_iff.
  - apply ex_oracle_lists.
  - apply (plain_id_tr vzero).
  - apply plain_id_tr.
  - intros o [<- | []]. split; apply turned_plain.
  - exists ex_obs, (Corr (V2 320 240) (V3 0 0 0)). split; [ left; reflexivity | split; [ left; reflexivity | ] ].
    cbn [to_camera_mount to_target_mount ex_obs h2_camera_guess h2_target_guess ex_behind].
    rewrite target_in_camera_same by (first [ apply turned_plain | apply rigid_id ]). cbn [in_target]. geo_unfold. cbn. lra.
Qed.

(** ** C26: a picture *)
Definition ex_picture : observation vec2 := Obs (map (fun r => Corr (pinhole ex_k (iso_app ex_pose r)) r) ex_points) iso_id iso_id.
Lemma ex_picture_seen : target_in_camera iso_id (to_camera_mount ex_picture) (to_target_mount ex_picture) ex_pose = ex_pose.
Proof. cbn [to_camera_mount to_target_mount ex_picture]. rewrite target_in_camera_same by apply rigid_id. rewrite iso_inv_id. apply iso_mul_id_l. Qed.
Lemma ex_picture_errors : compute3DProjectionError_set [ex_picture] ex_k iso_id ex_pose = Ok [0; 0; 0].
Proof.
  destruct ex_points_fit as [Rp F].
  rewrite (error_set_perfect ex_k iso_id ex_pose).
  - reflexivity.
  - cbn. lra.
  - cbn. lra.
  - apply rigid_id.
  - exact Rp.
  - intros o [<- | []]. split; [ apply rigid_id | split; [ apply rigid_id | ] ]. cbv zeta. rewrite ex_picture_seen.
    intros c Hc. apply in_map_iff in Hc as (r & <- & Hr). destruct (F r Hr) as (A & B & C). cbn [in_target in_image]. auto.
Qed.

(** ** C27: fits that are not good *)
Definition bad_run : pnp_run := Run (fun _ _ => 0) (fun _ x => (x, Summary false 9 9)) ex_cov_oracle.
Lemma bad_fits k g cs : cs <> [] -> exists r, fitted bad_run k g cs r /\ ~ good_fit 1 r.
Proof.
  intros N. destruct (pnp_succeeds2 (run_u bad_run) (run_solve bad_run) (run_cov bad_run) (PnP2 k cs g "camera_to_target")) as [r E];
    try reflexivity; [ apply ex_oracle_sym | exact N | ].
  exists r. split; [ exact E | ]. destruct (pnp_result2 (PnP2 k cs g "camera_to_target")) as (b & _ & X).
  destruct (X _ _ _ _ E) as (_ & x & s & Es & C & _). cbn [bad_run run_solve] in Es. injection Es as <- <-.
  intros [C' _]. rewrite C in C'. discriminate.
Qed.
Lemma bad_first k g run : measureVirtualTargetDiff bad_run run ex_corrs k g 1 = Throw RuntimeError.
Proof.
  destruct (bad_fits k g [Corr (V2 320 240) (V3 0 0 0)] ltac:(discriminate)) as (p1 & F1 & G1).
  refine (virtual_throws_first bad_run run ex_corrs k g 1 _ [Corr (V2 420 240) (V3 (1/5) 0 0); Corr (V2 320 340) (V3 0 (1/5) 0)] p1 _ _ F1 G1); reflexivity.
Qed.
Lemma bad_second k g : measureVirtualTargetDiff ex_run bad_run ex_corrs k g 1 = Throw RuntimeError.
Proof.
  destruct (ex_fits k g [Corr (V2 320 240) (V3 0 0 0)] ltac:(discriminate)) as (p1 & F1 & G1).
  destruct (bad_fits k g [Corr (V2 420 240) (V3 (1/5) 0 0); Corr (V2 320 340) (V3 0 (1/5) 0)] ltac:(discriminate)) as (p2 & F2 & G2).
  refine (virtual_throws_second ex_run bad_run ex_corrs k g 1 _ _ p1 p2 _ _ F1 G1 F2 G2); reflexivity.
Qed.

(** ** C43: a focal length written as a whole number *)
Local Open Scope string_scope.
Definition whole_params : xml := XStruct [("fx", XInt 500); ("fy", XDouble 500); ("cx", XDouble 320); ("cy", XDouble 240)].
Definition whole_yaml : yaml := YMap [("fx", YInt 500); ("fy", YReal 500); ("cx", YReal 320); ("cy", YReal 240)].
Lemma whole_says : member "fx" whole_params (XInt 500) /\ says_intr whole_yaml (Intr 500 500 320 240).
Proof.
  split; [ exists [], [("fy", XDouble 500); ("cx", XDouble 320); ("cy", XDouble 240)]; split; [ reflexivity | intros [] ] | ].
  split; [ eexists; split; reflexivity | ]. cbn [fx fy cx cy].
  split; [ | repeat split; apply find_number; reflexivity ].
  exists (YInt 500). split; [ exists [], [("fy", YReal 500); ("cx", YReal 320); ("cy", YReal 240)]; split; [ reflexivity | intros [] ] | ].
  right. exists 500%Z. split; reflexivity.
Qed.
Lemma whole_loads : loadIntrinsics_param (fun _ => Some whole_params) "camera" = Throw InvalidParameter /\
  loadIntrinsics_file (fun _ => Some whole_yaml) "camera.yaml" = Ok (Intr 500 500 320 240).
Proof.
  destruct whole_says as [P Y].
  destruct (integers (fun _ => Some whole_params) "camera" (fun _ => Some whole_yaml) "camera.yaml" whole_params whole_yaml (Intr 500 500 320 240) 500%Z
    [] [("fy", YReal 500); ("cx", YReal 320); ("cy", YReal 240)] eq_refl P eq_refl Y eq_refl (fun x => x)) as (A & B & _). split; assumption.
Qed.

(** ** C44: a chain with a joint of each kind, and a problem *)
Definition slide_yaml : yaml :=
  YMap [("joint_name", YStr "slide"); ("type", YInt 0); ("d", YReal 1); ("theta", YReal 2); ("r", YReal 3); ("alpha", YReal 4)].
Definition turn_yaml : yaml :=
  YMap [("type", YInt 1); ("d", YReal 0); ("theta", YReal 0); ("r", YReal 5); ("alpha", YReal 0); ("joint_name", YStr "turn")].
Definition chain_yaml : yaml := YMap [("base_transform", long_yaml); ("dh_transforms", YSeq [slide_yaml; turn_yaml])].
Definition slide_joint : dh_transform := DHT (V4 1 2 3 4) LINEAR 1 0 "slide" 0.
Definition turn_joint : dh_transform := DHT (V4 0 0 5 0) REVOLUTE 1 0 "turn" 0.
Lemma find_has key m v : find_str key m = Some v -> has key (YMap m) v.
Proof. intros E. apply find_str_iff in E. destruct E as (m1 & m2 & -> & N). exists m1, m2. auto. Qed.
Lemma joints_said : Forall2 says_joint [slide_yaml; turn_yaml] [slide_joint; turn_joint].
Proof.
  constructor; [ | constructor; [ | constructor ] ]; unfold says_joint, slide_yaml, turn_yaml, slide_joint, turn_joint;
    cbn [jtype joint_code params e0 e1 e2 e3 jname];
    (split; [ eexists; split; [ reflexivity | apply find_has; reflexivity ] | ]);
    repeat split; first [ apply find_number; reflexivity | apply find_has; reflexivity ].
Qed.
Lemma chain_said : has "base_transform" chain_yaml long_yaml /\ says_pose long_yaml vzero (Q 0 2 0 0) /\
  has "dh_transforms" chain_yaml (YSeq [slide_yaml; turn_yaml]).
Proof. split; [ apply find_has; reflexivity | split; [ exact (proj2 long_says) | apply find_has; reflexivity ] ]. Qed.
Lemma chain_loads text seeds : exists c, as_ (decode_dh_chain text seeds) chain_yaml = Ok c /\ map jname (transforms c) = ["slide"; "turn"] /\
  map jtype (transforms c) = [LINEAR; REVOLUTE].
Proof.
  destruct chain_said as (B & P & D).
  destruct (chain_reads text seeds chain_yaml (Iso (q_matrix (Q 0 2 0 0)) vzero) (Q 0 2 0 0) long_yaml _ _ B P eq_refl D joints_said) as (c & E & _ & F).
  exists c. split; [ exact E | ]. inversion F as [ | x y l l' (_ & T1 & N1 & _) F' E1 E2 ]; subst. inversion F' as [ | x' y' m m' (_ & T2 & N2 & _) F'' E3 E4 ]; subst. inversion F''; subst.
  cbn [map]. rewrite T1, N1, T2, N2. split; reflexivity.
Qed.
Lemma ex_problem_rigid : rigid (h2_camera_guess ex_he) /\ rigid (h2_target_guess ex_he) /\
  (forall o, In o (h2_observations ex_he) -> rigid_observation o).
Proof.
  split; [ apply rigid_id | split; [ apply rigid_trans | ] ]. intros o [<- | []]. split; apply turned_plain.
Qed.

(** ** C46: two pictures that are not the same but compare equal *)
Local Open Scope R_scope.
Definition near_one : observation vec2 := Obs [Corr (V2 1 0) (V3 2 0 0)] turned turned.
Definition near_two : observation vec2 := Obs [Corr (V2 (1 + / 10 ^ 13) 0) (V3 2 0 0)] turned turned.
Lemma norm2_x x : 0 <= x -> norm2 (V2 x 0) = x.
Proof. intros H. unfold norm2. cbn [px py]. replace (x * x + 0 * 0) with (x * x) by ring. apply sqrt_square, H. Qed.
Lemma within_same s : 0 <= s -> within 0 s s.
Proof. intros H. assert (0 < / 10 ^ 12) by (apply Rinv_0_lt_compat; lra). split; nra. Qed.
Lemma mat_same m : mat_dist2 m m = 0.
Proof. unfold mat_dist2, Rsqr. ring. Qed.
Lemma vec_same v : norm (vsub v v) = 0.
Proof. unfold norm, dot, vsub. cbn [vx vy vz]. replace (_ + _) with 0 by ring. apply sqrt_0. Qed.
Lemma near_close : rigid_observation near_one /\ rigid_observation near_two /\ close_observation close2 near_one near_two /\ near_one <> near_two.
Proof.
  split; [ split; apply turned_plain | ]. split; [ split; apply turned_plain | ].
  assert (P : close_pose turned turned).
  { unfold close_pose. rewrite mat_same, vec_same. replace (0 + 0 ^ 2) with 0 by ring. rewrite sqrt_0. apply within_same, sqrt_pos. }
  assert (S : 0 < / 10 ^ 13) by (apply Rinv_0_lt_compat; lra).
  split.
  - split; [ exact P | split; [ exact P | ] ]. constructor; [ | constructor ]. split; cbn [in_image in_target].
    + unfold close2. cbn [px py].
      replace (norm2 (V2 (1 - (1 + / 10 ^ 13)) (0 - 0))) with (/ 10 ^ 13).
      2:{ unfold norm2. cbn [px py]. replace ((1 - (1 + / 10 ^ 13)) * (1 - (1 + / 10 ^ 13)) + (0 - 0) * (0 - 0)) with (/ 10 ^ 13 * / 10 ^ 13) by ring.
          symmetry. apply sqrt_square. lra. }
      rewrite !norm2_x by lra. split; lra.
    + unfold close3. rewrite vec_same. apply within_same, sqrt_pos.
  - intros E. unfold near_one, near_two in E. assert (X : 1 = 1 + / 10 ^ 13) by congruence. lra.
Qed.

(** ** C48: kinematic calibration on pictures, with the last row of the camera chain held *)
Definition last_row (i j : nat) : bool := Nat.eqb i 1.
Definition ex_kin2 : kin_problem2D3D :=
  KP2 [KObs [1; 1/2] [0; 1/2] [Corr (V2 320 240) (V3 0 0 0); Corr (V2 370 240) (V3 (1/10) 0 0)]] (Intr 500 500 320 240)
      (ex_kin_common ex_chain (createDHMask 2 last_row)).
Lemma ex_kin2_masks : masks_fit (k2_common ex_kin2).
Proof. apply ex_kin_masks. intros z Hz. cbn in Hz. cbn. lia. Qed.
Lemma ex_kin2_ok u solve : exists r, kin_optimize2D3D u solve ex_cov_oracle ex_kin2 = Ok r.
Proof.
  apply kin2_succeeds; [ apply ex_oracle_lists | apply ex_kin2_masks | reflexivity | reflexivity | apply ex_oracle_sym | discriminate | ].
  intros oc Hoc. cbn in Hoc. repeat destruct Hoc as [<- | Hoc]; try contradiction; cbn; (split; [ lia | split; [ apply ex_chain_known | split; [ lia | apply ex_chain_known ] ] ]).
Qed.
(** The result of a solver that leaves everything alone meets the conditions on held offsets and poses. *)
Lemma ex_kin2_held : exists r, kin_optimize2D3D (fun _ _ => 0) (KinematicExample.run_solve still_run) ex_cov_oracle ex_kin2 = Ok r /\ keeps_frozen (KinematicExample.run_solve still_run) /\
  nth 0 (kc_mask (k2_common ex_kin2)) [] = createDHMask (dof (kc_camera_chain (k2_common ex_kin2))) last_row /\
  (forall k i, k = 2%nat \/ k = 3%nat -> (i < 3)%nat -> masked (k2_common ex_kin2) k i).
Proof.
  destruct (ex_kin2_ok (fun _ _ => 0) (KinematicExample.run_solve still_run)) as [r E]. exists r.
  split; [ exact E | split; [ apply still_keeps | split; [ reflexivity | ] ] ].
  intros k i [-> | ->] Hi; do 3 (destruct i as [ | i]; [ unfold masked; cbn; auto | ]); lia.
Qed.

(** ** C53: what is printed for a block with a mask, one that is constant and one that is free *)
Definition three_blocks : problem := Problem [(7, 2); (3, 1); (5, 2)]%nat (fun _ => fresh_block).
Definition three_names : amap string := [(3, "slide"); (5, "camera"); (7, "arm")]%nat%string.
Definition three_labels : amap (list string) := [(3, ["s"]); (5, ["x"; "y"]); (7, ["d"; "theta"])]%nat%string.
Definition three_masks : amap (list Z) := [(3%nat, [0%Z]); (5%nat, []); (7%nat, [1%Z])].
Lemma three_printed : exists p', addSubsetParameterization three_blocks three_masks = Ok p' /\
  printOptimizationLabels p' three_names three_labels three_masks = Ok [("arm", ["d"]); ("slide", []); ("camera", ["x"; "y"])]%string.
Proof. eexists. split; [ reflexivity | reflexivity ]. Qed.
Lemma three_fits : NoDup (keys (p_blocks three_blocks)) /\ (forall b, In b (keys (p_blocks three_blocks)) -> bs_subset (p_state three_blocks b) = None) /\
  (forall b n, In (b, n) (p_blocks three_blocks) ->
     (exists nm, find_key b three_names = Some nm) /\ (exists l, find_key b three_labels = Some l /\ List.length l = n) /\
     (exists m, find_key b three_masks = Some m /\ forall z, In z m -> (0 <= z < Z.of_nat n)%Z)).
Proof.
  split; [ | split; [ reflexivity | ] ].
  - repeat constructor; cbn; lia.
  - intros b n H. cbn in H. destruct H as [E | [E | [E | []]]]; injection E as <- <-;
      (split; [ eexists; reflexivity | split; [ eexists; split; reflexivity | eexists; split; [ reflexivity | intros z Hz; cbn in Hz; lia ] ] ]).
Qed.

(** ** C57: saving a longer version of a stored data set is interrupted while the first image is written again *)
Local Open Scope string_scope.
Definition longer : list (nat * iso) := [(1%nat, InterruptProofs.still); (2%nat, moved)].
Definition cut_image : fs (nat + yaml) := update old_disk "d/images/0.png" (Some (inl 0%nat)).
Lemma longer_cut : stored plain_codec old_disk "d" [(1%nat, InterruptProofs.still)] /\
  before_index plain_codec old_disk "d" (of_pairs ([(1%nat, InterruptProofs.still)] ++ [(2%nat, moved)])%list) cut_image.
Proof.
  split; [ exact old_stored | ]. unfold cut_image.
  refine (in_file plain_codec old_disk "d" (of_pairs longer) [] "d/images/0.png" (inl 1%nat) (skipn 1 (save_effects plain_codec "d" (of_pairs longer))) (Some (inl 0%nat)) _ _ _).
  - discriminate.
  - reflexivity.
  - split; [ reflexivity | intros n Hn; discriminate ].
Qed.
(** ** C50: what was collected can be stored and is read back *)
Definition ex_history : list (event (option nat)) :=
  [NewImage (Some 1%nat); Trigger (Some (Tf (V3 1 2 3) (Q (3/5) (4/5) 0 0))); NewImage (Some 4%nat); Trigger (Some (Tf (V3 0 0 1) (Q 1 0 0 0)))].
Lemma ex_history_storable : forall i t, In (i, t) (collected plain_camera None ex_history) -> real_image i /\ qnorm2 (tf_rotation t) = 1%R.
Proof. intros i t [E | [E | []]]; injection E as <- <-; (split; [ discriminate | unfold qnorm2; cbn; lra ]). Qed.
Lemma ex_history_saved disk u : exists c c', fst (spin plain_codec plain_camera "d" (Running (initial disk)) ex_history) = Running c /\
  step plain_codec plain_camera "d" (Running c) (Save always) = (Running c', Answer true) /\
  parseFromFile plain_codec (Collector.disk c') u ("d" ++ "/data.yaml") =
    Ok (Some (of_pairs [(1%nat, Iso (q_matrix (Q (3/5) (4/5) 0 0)) (V3 1 2 3)); (4%nat, Iso (q_matrix (Q 1 0 0 0)) (V3 0 0 1))])).
Proof.
  assert (S : exists c, fst (spin plain_codec plain_camera "d" (Running (initial disk)) ex_history) = Running c) by (eexists; reflexivity).
  destruct S as [c E]. exists c.
  destruct (saved_history plain_codec plain_camera "d" real_image disk ex_history c u always plain_lossless ex_history_storable (fun p => eq_refl) E) as (c' & A & B).
  exists c'. split; [ exact E | split; [ exact A | exact B ] ].
Qed.
