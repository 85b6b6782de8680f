(** The equality operators. *)
From Coq Require Import Reals Lra Lia List Bool Arith.
From Verif.Base Require Import Geom Outcome Matrix.
From Verif.Model Require Import Pose HandEye Kinematic Targets Yaml Serialization Equality.
From Verif.Spec Require Import EqualitySpec YamlSpec.
From Verif.Proofs Require Import GeomLemmas YamlProofs.
Import ListNotations.
Local Open Scope R_scope.

Lemma abs2_pos l : 0 <= abs2_sum l.
Proof. induction l as [ | x r IH]; cbn [abs2_sum fold_right]; [ lra | ]. fold (abs2_sum r). pose proof (Rle_0_sqr x) as S. unfold Rsqr in S. lra. Qed.
Lemma prec_pos : 0 < / 10 ^ 12.
Proof. apply Rinv_0_lt_compat, pow_lt. lra. Qed.
Lemma sqrt_bound p d s : 0 < p -> 0 <= d -> 0 <= s -> (d <= p * p * s <-> sqrt d <= p * sqrt s).
Proof.
  intros P D S. rewrite <- (sqrt_square p) at 3 by lra. rewrite <- sqrt_mult by nra. split; intros H.
  - apply sqrt_le_1; nra.
  - apply sqrt_le_0; nra.
Qed.
Lemma approx_iff a b : isApprox a b = true <-> within (sqrt (abs2_sum (difference a b))) (sqrt (abs2_sum a)) (sqrt (abs2_sum b)).
Proof.
  pose proof prec_pos as P. unfold isApprox, within, dummy_precision. generalize dependent (/ 10 ^ 12). intros p P.
  pose proof (abs2_pos (difference a b)) as D. pose proof (abs2_pos a) as A. pose proof (abs2_pos b) as B. revert D A B.
  generalize (abs2_sum (difference a b)) (abs2_sum a) (abs2_sum b). intros d s t D S T.
  rewrite <- !sqrt_bound by assumption. destruct (Rle_dec d _) as [L | L].
  - split; [ intros _ | reflexivity ]. pose proof (Rmin_l s t). pose proof (Rmin_r s t). assert (0 < p * p) by nra. split; nra.
  - split; [ discriminate | ]. intros [H1 H2]. exfalso. apply L. unfold Rmin. destruct (Rle_dec s t); assumption.
Qed.
Lemma approx2 a b : isApprox (coeffs2 a) (coeffs2 b) = true <-> close2 a b.
Proof.
  rewrite approx_iff. unfold close2, norm2, coeffs2, difference, abs2_sum. cbn [combine map fold_right fst snd px py]. rewrite !Rplus_0_r, ?Rplus_assoc. reflexivity.
Qed.
Lemma approx3 a b : isApprox (coeffs3 a) (coeffs3 b) = true <-> close3 a b.
Proof.
  rewrite approx_iff. unfold close3, norm, dot, vsub, coeffs3, difference, abs2_sum. cbn [combine map fold_right fst snd vx vy vz]. rewrite !Rplus_0_r, !Rplus_assoc. reflexivity.
Qed.
Lemma norm_pow v : norm v ^ 2 = vx v * vx v + vy v * vy v + vz v * vz v.
Proof. unfold norm. rewrite <- Rsqr_pow2, Rsqr_sqrt; unfold dot; nra. Qed.
Lemma size_rot m : is_rot m ->
  m00 m * m00 m + m10 m * m10 m + m20 m * m20 m + (m01 m * m01 m + m11 m * m11 m + m21 m * m21 m) + (m02 m * m02 m + m12 m * m12 m + m22 m * m22 m) = 3.
Proof.
  intros [H _]. unfold mmul, mT, I3 in H. cbn in H. injection H as H0 H1 H2 H3 H4 H5 H6 H7 H8. lra.
Qed.
Lemma approx_pose A B : rigid A -> rigid B -> (isApprox (coeffs_iso A) (coeffs_iso B) = true <-> close_pose A B).
Proof.
  intros RA RB. rewrite approx_iff. unfold close_pose. rewrite !norm_pow.
  assert (E : abs2_sum (difference (coeffs_iso A) (coeffs_iso B)) = mat_dist2 (lin A) (lin B) + (vx (vsub (tr A) (tr B)) * vx (vsub (tr A) (tr B)) + vy (vsub (tr A) (tr B)) * vy (vsub (tr A) (tr B)) + vz (vsub (tr A) (tr B)) * vz (vsub (tr A) (tr B)))).
  { unfold mat_dist2, vsub, coeffs_iso, difference, abs2_sum, Rsqr. cbn. ring. }
  assert (F : forall T, rigid T -> abs2_sum (coeffs_iso T) = 4 + (vx (tr T) * vx (tr T) + vy (tr T) * vy (tr T) + vz (tr T) * vz (tr T))).
  { intros T RT. apply size_rot in RT. unfold coeffs_iso, abs2_sum. cbn [fold_right]. lra. }
  rewrite E, !F by assumption. reflexivity.
Qed.
Lemma approx_joints a b : isApprox_dynamic a b = Ok true <-> close_joints a b.
Proof.
  unfold isApprox_dynamic, close_joints. destruct (Nat.eqb_spec (length a) (length b)) as [E | E].
  - split; [ intros H; injection H as H; split; [ exact E | apply approx_iff, H ] | intros [_ H]; f_equal; apply approx_iff, H ].
  - split; [ discriminate | intros [H _]; contradiction ].
Qed.
Lemma list_eqb_iff {A} (eqb : A -> A -> bool) (P : A -> A -> Prop) a : forall b,
  (forall x y, In x a -> In y b -> (eqb x y = true <-> P x y)) -> (list_eqb eqb a b = true <-> Forall2 P a b).
Proof.
  induction a as [ | x r IH]; intros [ | y s] H; cbn [list_eqb].
  - split; [ constructor | reflexivity ].
  - split; [ discriminate | intros F; inversion F ].
  - split; [ discriminate | intros F; inversion F ].
  - rewrite andb_true_iff, (H x y) by (left; reflexivity). rewrite IH by (intros; apply H; right; assumption). split.
    + intros [A1 A2]. constructor; assumption.
    + intros F. inversion F. auto.
Qed.
Lemma real_eqb_iff x y : real_eqb x y = true <-> x = y.
Proof. unfold real_eqb. destruct (Req_EM_T x y); split; congruence. Qed.
Lemma intrinsics_iff a b : intrinsics_eqb a b = true <-> a = b.
Proof.
  unfold intrinsics_eqb. cbn [list_eqb]. rewrite !andb_true_iff, !real_eqb_iff. destruct a, b. cbn. split; [ intros (-> & -> & -> & -> & _); reflexivity | intros E; injection E as -> -> -> ->; auto ].
Qed.

Section Kinds.
  Variables (I : Type) (coeffs : I -> list R) (close : I -> I -> Prop).
  Hypothesis coeffs_close : forall a b, isApprox (coeffs a) (coeffs b) = true <-> close a b.

  Lemma corr_iff a b : corr_eqb coeffs a b = true <-> close_correspondence close a b.
  Proof. unfold corr_eqb, close_correspondence. rewrite andb_true_iff, coeffs_close, approx3. reflexivity. Qed.
  Lemma corrs_iff a b : list_eqb (corr_eqb coeffs) a b = true <-> Forall2 (close_correspondence close) a b.
  Proof. apply list_eqb_iff. intros. apply corr_iff. Qed.
  Lemma obs_iff a b : rigid_observation a -> rigid_observation b -> (obs_eqb coeffs a b = true <-> close_observation close a b).
  Proof.
    intros [A1 A2] [B1 B2]. unfold obs_eqb, close_observation. rewrite !andb_true_iff, !approx_pose by assumption. rewrite corrs_iff. tauto.
  Qed.
  Lemma within_zero s : 0 <= s -> within 0 s s.
  Proof. intros S. pose proof prec_pos. unfold within. split; nra. Qed.
  Lemma abs2_diff_self l : abs2_sum (difference l l) = 0.
  Proof. induction l as [ | x r IH]; [ reflexivity | ]. unfold difference, abs2_sum in *. cbn. rewrite IH. ring. Qed.
  Lemma approx_self l : isApprox l l = true.
  Proof. apply approx_iff. rewrite abs2_diff_self, sqrt_0. apply within_zero, sqrt_pos. Qed.
  Lemma corr_self a : corr_eqb coeffs a a = true.
  Proof. unfold corr_eqb. rewrite !approx_self. reflexivity. Qed.
  Lemma list_eqb_self {A} (eqb : A -> A -> bool) l : (forall x, eqb x x = true) -> list_eqb eqb l l = true.
  Proof. intros H. induction l as [ | x r IH]; [ reflexivity | ]. cbn. rewrite H. exact IH. Qed.
  Lemma obs_self a : obs_eqb coeffs a a = true.
  Proof. unfold obs_eqb. rewrite !approx_self. cbn. apply list_eqb_self, corr_self. Qed.

  Lemma dynamic_cases a b : (length a = length b /\ exists c, isApprox_dynamic a b = Ok c) \/ (length a <> length b /\ isApprox_dynamic a b = UB).
  Proof. unfold isApprox_dynamic. destruct (Nat.eqb_spec (length a) (length b)); eauto. Qed.
  Lemma and_true x y : and_then x y = Ok true <-> x = Ok true /\ y = Ok true.
  Proof. unfold and_then. destruct x as [[ | ] | | ]; cbn; intuition congruence. Qed.
  (** Only the joints count. *)
  Lemma kin_iff a b : kin_obs_eqb coeffs a b = Ok true <->
    close_joints (ko_camera_chain_joints a) (ko_camera_chain_joints b) /\ close_joints (ko_target_chain_joints a) (ko_target_chain_joints b).
  Proof.
    unfold kin_obs_eqb. rewrite !and_true, !approx_joints. rewrite list_eqb_self by apply corr_self. tauto.
  Qed.
  Lemma kin_needs a b : close_kinematic close a b -> kin_obs_eqb coeffs a b = Ok true.
  Proof. intros (A & B & _). apply kin_iff. auto. Qed.
  Lemma kin_blind a b cs : kin_obs_eqb coeffs a b = kin_obs_eqb coeffs a (KObs (ko_camera_chain_joints b) (ko_target_chain_joints b) cs).
  Proof. reflexivity. Qed.
End Kinds.

Lemma meas_iff a b : rigid (km_camera_to_target a) -> rigid (km_camera_to_target b) ->
  (kin_meas_eqb a b = Ok true <-> close_pose (km_camera_to_target a) (km_camera_to_target b) /\
     close_joints (km_camera_chain_joints a) (km_camera_chain_joints b) /\ close_joints (km_target_chain_joints a) (km_target_chain_joints b)).
Proof.
  intros A B. unfold kin_meas_eqb. rewrite !and_true, !approx_joints. rewrite <- approx_pose by assumption. split; [ intros ((H & ?) & ?); injection H as H; auto | intros (H & ? & ?); rewrite H; auto ].
Qed.
Lemma sizes_differ (a b : kin_measurement) : isApprox (coeffs_iso (km_camera_to_target a)) (coeffs_iso (km_camera_to_target b)) = true ->
  length (km_camera_chain_joints a) <> length (km_camera_chain_joints b) -> kin_meas_eqb a b = UB.
Proof. intros P N. unfold kin_meas_eqb. rewrite P. unfold isApprox_dynamic at 1. rewrite (proj2 (Nat.eqb_neq _ _) N). reflexivity. Qed.
Lemma kin_sizes_differ {I} (coeffs : I -> list R) a b : length (ko_camera_chain_joints a) <> length (ko_camera_chain_joints b) -> kin_obs_eqb coeffs a b = UB.
Proof. intros N. unfold kin_obs_eqb, isApprox_dynamic at 1. rewrite (proj2 (Nat.eqb_neq _ _) N). reflexivity. Qed.

Lemma problem2_iff a b :
  rigid (h2_camera_guess a) -> rigid (h2_target_guess a) -> rigid (h2_camera_guess b) -> rigid (h2_target_guess b) ->
  (forall o, In o (h2_observations a) \/ In o (h2_observations b) -> rigid_observation o) ->
  (problem2D3D_eqb a b = true <-> Forall2 (close_observation close2) (h2_observations a) (h2_observations b) /\ h2_intr a = h2_intr b /\
     close_pose (h2_target_guess a) (h2_target_guess b) /\ close_pose (h2_camera_guess a) (h2_camera_guess b)).
Proof.
  intros. unfold problem2D3D_eqb. rewrite !andb_true_iff, intrinsics_iff, !approx_pose by assumption.
  rewrite (list_eqb_iff _ (close_observation close2)) by (intros; apply obs_iff; [ exact approx2 | auto .. ]). tauto.
Qed.
Lemma problem3_iff a b :
  rigid (h3_camera_guess a) -> rigid (h3_target_guess a) -> rigid (h3_camera_guess b) -> rigid (h3_target_guess b) ->
  (forall o, In o (h3_observations a) \/ In o (h3_observations b) -> rigid_observation o) ->
  (problem3D3D_eqb a b = true <-> Forall2 (close_observation close3) (h3_observations a) (h3_observations b) /\
     close_pose (h3_target_guess a) (h3_target_guess b) /\ close_pose (h3_camera_guess a) (h3_camera_guess b)).
Proof.
  intros. unfold problem3D3D_eqb. rewrite !andb_true_iff, !approx_pose by assumption.
  rewrite (list_eqb_iff _ (close_observation close3)) by (intros; apply obs_iff; [ exact approx3 | auto .. ]). tauto.
Qed.
(** What was written and read compares equal. *)
Lemma problems_read_equal p2 p3 :
  rigid (h2_camera_guess p2) -> rigid (h2_target_guess p2) -> (forall o, In o (h2_observations p2) -> rigid_observation o) ->
  rigid (h3_camera_guess p3) -> rigid (h3_target_guess p3) -> (forall o, In o (h3_observations p3) -> rigid_observation o) ->
  exists q2 q3, as_ decode_problem2D3D (encode_problem2D3D p2) = Ok q2 /\ problem2D3D_eqb p2 q2 = true /\
    as_ decode_problem3D3D (encode_problem3D3D p3) = Ok q3 /\ problem3D3D_eqb p3 q3 = true.
Proof.
  intros. rewrite problem2_round, problem3_round by assumption. eexists. eexists. split; [ reflexivity | ]. split.
  - unfold problem2D3D_eqb. cbn [h2_observations h2_intr h2_target_guess h2_camera_guess]. rewrite !approx_self, list_eqb_self by apply obs_self. rewrite (proj2 (intrinsics_iff _ _) eq_refl). reflexivity.
  - split; [ reflexivity | ]. unfold problem3D3D_eqb. cbn [h3_observations h3_target_guess h3_camera_guess]. rewrite !approx_self, list_eqb_self by apply obs_self. reflexivity.
Qed.

(** ** Order of the operands *)

Lemma difference_sym a : forall b, abs2_sum (difference a b) = abs2_sum (difference b a).
Proof.
  induction a as [ | x r IH]; intros [ | y s]; try reflexivity. specialize (IH s). unfold difference, abs2_sum in *. cbn. rewrite IH. ring.
Qed.
Lemma approx_sym a b : isApprox a b = isApprox b a.
Proof. unfold isApprox. rewrite difference_sym, Rmin_comm. reflexivity. Qed.
Lemma list_eqb_sym {A} (eqb : A -> A -> bool) a : (forall x y, eqb x y = eqb y x) -> forall b, list_eqb eqb a b = list_eqb eqb b a.
Proof. intros H. induction a as [ | x r IH]; intros [ | y s]; try reflexivity. cbn. rewrite H, IH. reflexivity. Qed.
Lemma corr_sym {I} (coeffs : I -> list R) a b : corr_eqb coeffs a b = corr_eqb coeffs b a.
Proof. unfold corr_eqb. rewrite (approx_sym (coeffs _)), (approx_sym (coeffs3 _)). reflexivity. Qed.
Lemma obs_sym {I} (coeffs : I -> list R) a b : obs_eqb coeffs a b = obs_eqb coeffs b a.
Proof. unfold obs_eqb. rewrite (approx_sym (coeffs_iso (to_camera_mount a))), (approx_sym (coeffs_iso (to_target_mount a))), (list_eqb_sym _ _ (corr_sym coeffs)). reflexivity. Qed.
Lemma obs_equivalence {I} (coeffs : I -> list R) : (forall a, obs_eqb coeffs a a = true) /\ (forall a b, obs_eqb coeffs a b = obs_eqb coeffs b a).
Proof. split; [ apply obs_self | apply obs_sym ]. Qed.

(** ** Nothing is close to the origin but the origin *)

Lemma close_origin b : close3 vzero b <-> b = vzero.
Proof.
  pose proof prec_pos. unfold close3, within. split.
  - intros [L _]. assert (Z : norm vzero = 0) by (unfold norm, dot; cbn; replace (0 * 0 + 0 * 0 + 0 * 0) with 0 by ring; apply sqrt_0). rewrite Z, Rmult_0_r in L.
    unfold norm in L. assert (D : dot (vsub vzero b) (vsub vzero b) = 0). { apply sqrt_eq_0; [ unfold dot; nra | ]. apply Rle_antisym; [ exact L | apply sqrt_pos ]. }
    destruct b as [x y z]. unfold dot, vsub, vzero in D. cbn in D. unfold vzero. f_equal; nra.
  - intros ->. assert (Z : norm (vsub vzero vzero) = 0) by (unfold norm, dot; cbn; replace (_ + _ + _) with 0 by ring; apply sqrt_0). rewrite Z. pose proof (sqrt_pos (dot vzero vzero)). fold (norm vzero) in *. split; nra.
Qed.

(** ** The comparison of kinematic observations is too weak *)

Definition seen : kin_observation vec2 := KObs [] [] [Corr (V2 1 2) (V3 3 4 5)].
Definition not_seen : kin_observation vec2 := KObs [] [] [].
Lemma kin_wrong : ~ (forall a b, kin_obs_eqb coeffs2 a b = Ok true -> close_kinematic close2 a b).
Proof.
  intros H. assert (E : kin_obs_eqb coeffs2 seen not_seen = Ok true).
  { apply (proj2 (kin_iff _ _ _ _)). cbn. split; apply approx_joints; unfold isApprox_dynamic; cbn [length Nat.eqb]; rewrite approx_self; reflexivity. }
  apply H in E. destruct E as (_ & _ & F). inversion F.
Qed.

(** ** Targets *)

Lemma near_iff a b : near_float b a = true <-> Rabs (a - b) < / 2 ^ 23.
Proof. unfold near_float, float_epsilon. rewrite Rabs_minus_sym. destruct (Rlt_dec _ _); split; congruence || contradiction || auto. Qed.
Lemma vec3_eqb_iff a b : vec3_eqb a b = true <-> a = b.
Proof. unfold vec3_eqb. cbn [list_eqb coeffs3]. rewrite !andb_true_iff, !real_eqb_iff. destruct a, b. cbn. split; [ intros (-> & -> & -> & _); reflexivity | intros E; injection E as -> -> ->; auto ]. Qed.
Lemma Forall2_eq {A} (a b : list A) : Forall2 eq a b <-> a = b.
Proof. split; [ induction 1; congruence | intros ->; induction b; constructor; auto ]. Qed.
Lemma list_eq_iff {A} (eqb : A -> A -> bool) a b : (forall x y, eqb x y = true <-> x = y) -> (list_eqb eqb a b = true <-> a = b).
Proof. intros H. rewrite (list_eqb_iff eqb eq) by (intros; apply H). apply Forall2_eq. Qed.
Lemma map_eq_iff {P} (eqb : P -> P -> bool) a b : (forall x y, eqb x y = true <-> x = y) -> (map_eqb eqb a b = true <-> a = b).
Proof.
  intros H. apply list_eq_iff. intros [k x] [l y]. cbn. rewrite andb_true_iff, Nat.eqb_eq, H. split; [ intros [-> ->]; reflexivity | intros E; injection E; auto ].
Qed.
Lemma sym_iff {A} (x y : A) : x = y <-> y = x.
Proof. split; auto. Qed.
Lemma aruco_iff a b : aruco_eqb a b = true <->
  bt_width a = bt_width b /\ bt_height a = bt_height b /\ bt_points a = bt_points b /\
  Rabs (bt_length1 a - bt_length1 b) < / 2 ^ 23 /\ Rabs (bt_length2 a - bt_length2 b) < / 2 ^ 23.
Proof.
  unfold aruco_eqb. rewrite !andb_true_iff, !near_iff, !Nat.eqb_eq, map_eq_iff by (intros; apply list_eq_iff, vec3_eqb_iff).
  rewrite (sym_iff (bt_width b)), (sym_iff (bt_height b)), (sym_iff (bt_points b)). tauto.
Qed.
Lemma charuco_iff a b : charuco_eqb a b = true <->
  bt_width a = bt_width b /\ bt_height a = bt_height b /\ bt_points a = bt_points b /\
  Rabs (bt_length1 a - bt_length1 b) < / 2 ^ 23 /\ Rabs (bt_length2 a - bt_length2 b) < / 2 ^ 23.
Proof.
  unfold charuco_eqb. rewrite !andb_true_iff, !near_iff, !Nat.eqb_eq, map_eq_iff by apply vec3_eqb_iff.
  rewrite (sym_iff (bt_width b)), (sym_iff (bt_height b)), (sym_iff (bt_points b)). tauto.
Qed.
Lemma circle_grid_iff a b : circle_grid_eqb a b = true <->
  cg_rows a = cg_rows b /\ cg_cols a = cg_cols b /\ Rabs (cg_spacing a - cg_spacing b) < / 2 ^ 52.
Proof.
  unfold circle_grid_eqb, DBL_EPS. rewrite !andb_true_iff, !Nat.eqb_eq. destruct (Rlt_dec _ _); intuition discriminate.
Qed.
