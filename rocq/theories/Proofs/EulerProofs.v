(** Euler angles and the YAML form of a hand-eye result. *)
From Coq Require Import Reals Lra String List.
From Verif.Base Require Import Geom Outcome.
From Verif.Model Require Import Pose Covariance HandEye Yaml Serialization.
From Verif.Spec Require Import YamlSpec.
From Verif.Proofs Require Import GeomLemmas RotLemmas YamlProofs.
Import ListNotations.
Local Open Scope R_scope.

Lemma aa_x a : aa_matrix a unitX = rot_x a.
Proof. unfold aa_matrix, rot_x. geo_unfold. f_equal; ring. Qed.
Lemma aa_y a : aa_matrix a unitY = rot_y a.
Proof. unfold aa_matrix, rot_y. geo_unfold. f_equal; ring. Qed.
Lemma aa_z a : aa_matrix a unitZ = rot_z a.
Proof. unfold aa_matrix, rot_z. geo_unfold. f_equal; ring. Qed.
Lemma toIsometry_rpy t e : toIsometry t e = Iso (rpy_matrix (vx e) (vy e) (vz e)) t.
Proof. unfold toIsometry, rpy_matrix. rewrite aa_x, aa_y, aa_z. reflexivity. Qed.

Lemma atan2_unit y x : x * x + y * y = 1 -> cos (atan2 y x) = x /\ sin (atan2 y x) = y.
Proof.
  intros H. destruct (atan2_spec y x) as [C S].
  { destruct (Req_dec x 0) as [-> | N]; [ right; intros -> ; lra | left; exact N ]. }
  rewrite H, sqrt_1 in C, S. rewrite C, S. split; field.
Qed.
Lemma euler_first m : m00 m * m00 m + m10 m * m10 m + m20 m * m20 m = 1 -> m20 m * m20 m + m21 m * m21 m + m22 m * m22 m = 1 ->
  let e := eulerAngles210 m in
  cos (vx e) * cos (vy e) = m00 m /\ sin (vx e) * cos (vy e) = m10 m /\ sin (vy e) = - m20 m.
Proof.
  intros HC HR. unfold eulerAngles210. set (n := norm2 _).
  assert (N0 : 0 <= n) by apply sqrt_pos.
  assert (N : n * n = m00 m * m00 m + m10 m * m10 m) by (unfold n, norm2; cbn [px py]; rewrite sqrt_sqrt by nra; lra).
  assert (P1 : cos (atan2 (- m20 m) n) = n /\ sin (atan2 (- m20 m) n) = - m20 m) by (apply atan2_unit; lra).
  assert (P2 : cos (atan2 (- m20 m) (- n)) = - n /\ sin (atan2 (- m20 m) (- n)) = - m20 m) by (apply atan2_unit; lra).
  assert (A : n * cos (atan2 (m10 m) (m00 m)) = m00 m /\ n * sin (atan2 (m10 m) (m00 m)) = m10 m).
  { destruct (Req_dec (m00 m) 0) as [E0 | E0]; [ destruct (Req_dec (m10 m) 0) as [E1 | E1] | ].
    - assert (n = 0) by nra. rewrite E0, E1. split; nra.
    - destruct (atan2_spec (m10 m) (m00 m)) as [C S]; [ auto | ]. rewrite <- N, sqrt_square in C, S by exact N0.
      assert (n <> 0) by (intros X; rewrite X in N; nra). rewrite C, S. split; field; assumption.
    - destruct (atan2_spec (m10 m) (m00 m)) as [C S]; [ auto | ]. rewrite <- N, sqrt_square in C, S by exact N0.
      assert (n <> 0) by (intros X; rewrite X in N; nra). rewrite C, S. split; field; assumption. }
  clearbody n. destruct (Rlt_dec (atan2 (m10 m) (m00 m)) 0); cbn [vx vy].
  - rewrite neg_cos, neg_sin. destruct P2 as [-> ->]. lra.
  - destruct P1 as [-> ->]. lra.
Qed.
(** The angles are about z, y and x, in this order. *)
Lemma euler_spec m : is_rot m -> let e := eulerAngles210 m in rpy_matrix (vz e) (vy e) (vx e) = m.
Proof.
  intros H e. pose proof (is_rot_adj m H) as A. pose proof (is_rot_right m H) as Rr. destruct H as [Ro _].
  destruct (euler_first m) as (E1 & E2 & E3).
  { apply (f_equal m00) in Ro. destruct m; unfold mmul, mT, I3 in Ro; cbn in Ro |- *. lra. }
  { apply (f_equal m22) in Rr. destruct m; unfold mmul, mT, I3 in Rr; cbn in Rr |- *. lra. }
  fold e in E1, E2, E3.
  assert (E4 : cos (vz e) = cos (vx e) * m11 m - sin (vx e) * m01 m /\ sin (vz e) = sin (vx e) * m02 m - cos (vx e) * m12 m).
  { assert (X : vz e = atan2 (sin (vx e) * m02 m - cos (vx e) * m12 m) (cos (vx e) * m11 m - sin (vx e) * m01 m)) by (unfold e, eulerAngles210; destruct (Rlt_dec _ 0); reflexivity).
    rewrite X. apply atan2_unit.
    pose proof (sin2_cos2 (vx e)) as SC. unfold Rsqr in SC. set (s := sin (vx e)) in *. set (c := cos (vx e)) in *. set (d := cos (vy e)) in *. clearbody s c d.
    assert (Q0 := f_equal m00 Rr). assert (Q1 := f_equal m01 Rr). assert (Q2 := f_equal m11 Rr). destruct m as [a b1 b2 f g h i j k]. unfold mmul, mT, I3 in Q0, Q1, Q2. cbn in *. subst a f.
    replace ((c * g - s * b1) * (c * g - s * b1) + (s * b2 - c * h) * (s * b2 - c * h)) with (c * c * (g * g + h * h) + s * s * (b1 * b1 + b2 * b2) - 2 * s * c * (b1 * g + b2 * h)) by ring.
    replace (g * g + h * h) with (1 - (s * d) * (s * d)) by lra. replace (b1 * b1 + b2 * b2) with (1 - (c * d) * (c * d)) by lra. replace (b1 * g + b2 * h) with (- (c * d * (s * d))) by lra.
    transitivity (s * s + c * c); [ ring | exact SC ]. }
  destruct E4 as [C4 S4]. clearbody e. unfold rpy_matrix, rot_x, rot_y, rot_z. rewrite C4, S4. clear C4 S4. rewrite E3.
  pose proof (sin2_cos2 (vx e)) as SC. unfold Rsqr in SC. pose proof (sin2_cos2 (vy e)) as SD. unfold Rsqr in SD. rewrite E3 in SD.
  set (s := sin (vx e)) in *. set (c := cos (vx e)) in *. set (d := cos (vy e)) in *. clearbody s c d. clear E3 Ro.
  assert (Q1 := f_equal m01 A). assert (Q2 := f_equal m02 A). assert (Q4 := f_equal m11 A). assert (Q5 := f_equal m12 A). assert (Q7 := f_equal m21 A). assert (Q8 := f_equal m22 A).
  assert (Q3 := f_equal m10 A). assert (Q6 := f_equal m20 A).
  destruct m as [a b1 b2 f g h i j k]. unfold adj, mT in *. cbn in *. subst a f. unfold mmul. cbn.
  assert (F1 : c * b1 + s * g = - i * (s * b2 - c * h)) by (rewrite Q3 at 1; rewrite Q4 at 1; ring).
  assert (F2 : c * b2 + s * h = - i * (c * g - s * b1)) by (rewrite Q6 at 1; rewrite Q7 at 1; ring).
  clear A Rr Q1 Q2 Q3 Q4 Q6 Q7. f_equal.
  - ring.
  - transitivity (- s * (c * g - s * b1) + c * (- i * (s * b2 - c * h))); [ ring | rewrite <- F1 ]. transitivity (b1 * (s * s + c * c)); [ ring | rewrite SC; ring ].
  - transitivity (s * (s * b2 - c * h) + c * (- i * (c * g - s * b1))); [ ring | rewrite <- F2 ]. transitivity (b2 * (s * s + c * c)); [ ring | rewrite SC; ring ].
  - ring.
  - transitivity (c * (c * g - s * b1) + s * (- i * (s * b2 - c * h))); [ ring | rewrite <- F1 ]. transitivity (g * (s * s + c * c)); [ ring | rewrite SC; ring ].
  - transitivity (- c * (s * b2 - c * h) + s * (- i * (c * g - s * b1))); [ ring | rewrite <- F2 ]. transitivity (h * (s * s + c * c)); [ ring | rewrite SC; ring ].
  - ring.
  - rewrite Q5 at 1. ring.
  - rewrite Q8 at 1. ring.
Qed.

(** ** Results *)

Lemma result_reads r c0 : as_ (decode_result c0) (encode_result r) =
  Ok (HER (he_converged r) (he_initial_cost_per_obs r) (he_final_cost_per_obs r) (swapped (he_target_mount_to_target r)) (swapped (he_camera_mount_to_camera r)) c0).
Proof.
  apply as_ok. unfold decode_result, encode_result, swapped.
  cbn [ysize List.length Nat.eqb negb field find_str String.eqb Ascii.eqb Bool.eqb bind]. rewrite !vec3_round. cbn [bind]. rewrite !toIsometry_rpy.
  destruct r as [co ci cf t c cov]. cbn [he_converged he_initial_cost_per_obs he_final_cost_per_obs he_target_mount_to_target he_camera_mount_to_camera].
  generalize (eulerAngles210 (lin t)) (eulerAngles210 (lin c)). intros e e'. reflexivity.
Qed.

Lemma same_angle a b : - PI < a <= PI -> - PI < b <= PI -> cos a = cos b -> sin a = sin b -> a = b.
Proof.
  intros A B C S. rewrite <- (atan2_polar 1 a), <- (atan2_polar 1 b) by (assumption || lra). rewrite C, S. reflexivity.
Qed.
Lemma yaw_range m : let e := eulerAngles210 m in - PI < vx e <= PI.
Proof.
  pose proof (atan2_range (m10 m) (m00 m)). unfold eulerAngles210. destruct (Rlt_dec _ 0); cbn [vx]; lra.
Qed.
Lemma roll_range m : let e := eulerAngles210 m in - PI < vz e <= PI.
Proof. unfold eulerAngles210. destruct (Rlt_dec _ 0); cbn [vz]; apply atan2_range. Qed.
Lemma rpy_00 r p y : m00 (rpy_matrix r p y) = cos y * cos p.
Proof. unfold rpy_matrix, rot_x, rot_y, rot_z, mmul. cbn. ring. Qed.
Lemma rpy_10 r p y : m10 (rpy_matrix r p y) = sin y * cos p.
Proof. unfold rpy_matrix, rot_x, rot_y, rot_z, mmul. cbn. ring. Qed.
Lemma swapped_iff T : rigid T -> Rabs (m20 (lin T)) < 1 -> (swapped T = T <-> vz (eulerAngles210 (lin T)) = vx (eulerAngles210 (lin T))).
Proof.
  intros H G. pose proof (euler_spec (lin T) H) as E. cbv zeta in E. unfold swapped.
  pose proof (yaw_range (lin T)) as Y. pose proof (roll_range (lin T)) as Z. cbv zeta in Y, Z.
  assert (N : cos (vy (eulerAngles210 (lin T))) <> 0).
  { intros C. assert (R00 := f_equal m00 E). assert (R10 := f_equal m10 E). rewrite rpy_00, C in R00. rewrite rpy_10, C in R10.
    destruct H as [Ro _]. apply (f_equal m00) in Ro. destruct T as [[a b c d e f g h i] t]. unfold mmul, mT, I3 in Ro. cbn in *.
    assert (g * g < 1) by (apply Rabs_def2 in G; nra). nra. }
  split.
  - intros X. apply (f_equal lin) in X. cbn [lin] in X. rewrite <- E in X at 4. assert (X0 := f_equal m00 X). assert (X1 := f_equal m10 X). rewrite !rpy_00 in X0. rewrite !rpy_10 in X1.
    apply same_angle; try assumption; apply (Rmult_eq_reg_r (cos (vy (eulerAngles210 (lin T))))); assumption.
  - intros X. rewrite X. rewrite X in E. rewrite E. destruct T; reflexivity.
Qed.
Lemma swapped_same T : rigid T -> vz (eulerAngles210 (lin T)) = vx (eulerAngles210 (lin T)) -> swapped T = T.
Proof. intros H X. pose proof (euler_spec (lin T) H) as E. cbv zeta in E. unfold swapped. rewrite X. rewrite X in E. rewrite E. destruct T; reflexivity. Qed.
Lemma yaw_angles a : 0 < a < PI -> eulerAngles210 (rot_z a) = V3 a 0 0.
Proof.
  intros A. unfold eulerAngles210, rot_z. cbn [m00 m01 m02 m10 m11 m12 m20 m21 m22].
  assert (E : atan2 (sin a) (cos a) = a) by (rewrite <- (atan2_polar 1 a) at 3 by lra; rewrite !Rmult_1_l; reflexivity).
  rewrite E. destruct (Rlt_dec a 0); [ lra | ].
  assert (Z : forall y x, y = 0 -> 0 < x -> atan2 y x = 0). { intros y x -> Hx. unfold atan2. destruct (Rlt_dec 0 x); [ | lra ]. replace (0 / x) with 0 by (field; lra). apply atan_0. }
  rewrite (Z (- 0)); [ | ring | unfold norm2; cbn [px py]; apply sqrt_lt_R0; lra ].
  rewrite (Z (sin a * 0 - cos a * 0)); [ reflexivity | ring | ]. pose proof (sin2_cos2 a) as S. unfold Rsqr in S. lra.
Qed.
Lemma yaw_becomes_roll a t : 0 < a < PI -> swapped (Iso (rot_z a) t) = Iso (rot_x a) t.
Proof.
  intros A. unfold swapped. cbn [lin tr]. rewrite yaw_angles by exact A. cbn [vx vy vz]. f_equal. unfold rpy_matrix, rot_x, rot_y, rot_z, mmul. rewrite cos_0, sin_0. cbn. f_equal; ring.
Qed.
Lemma rot_z_rot a : is_rot (rot_z a).
Proof. pose proof (sin2_cos2 a) as S. unfold Rsqr in S. split; unfold rot_z, mmul, mT, det, I3; cbn; [ f_equal; lra | lra ]. Qed.
Lemma not_same a t : 0 < a < PI -> swapped (Iso (rot_z a) t) <> Iso (rot_z a) t.
Proof.
  intros A E. rewrite yaw_becomes_roll in E by exact A. apply (f_equal lin) in E. apply (f_equal m10) in E. cbn in E. pose proof (sin_gt_0 a (proj1 A) (proj2 A)). lra.
Qed.
Lemma result_wrong : ~ (forall c0 r, rigid (he_target_mount_to_target r) -> rigid (he_camera_mount_to_camera r) ->
  exists r', as_ (decode_result c0) (encode_result r) = Ok r' /\ he_target_mount_to_target r' = he_target_mount_to_target r /\ he_camera_mount_to_camera r' = he_camera_mount_to_camera r).
Proof.
  intros H. set (c0 := CR [] [] [] (Matrix.Mat 0 0 (fun _ _ => 0)) (Matrix.Mat 0 0 (fun _ _ => 0))). destruct (H c0 (HER true 0 0 (Iso (rot_z 1) vzero) (Iso (rot_z 1) vzero) c0)) as (r' & E & T & _).
  - apply rot_z_rot.
  - apply rot_z_rot.
  - rewrite result_reads in E. injection E as <-. cbn [he_target_mount_to_target] in T. revert T. apply not_same. pose proof PI_RGT_0. pose proof PI2_1. unfold PI2 in *. lra.
Qed.
Lemma result_same r c0 : rigid (he_target_mount_to_target r) -> rigid (he_camera_mount_to_camera r) ->
  let t := eulerAngles210 (lin (he_target_mount_to_target r)) in let c := eulerAngles210 (lin (he_camera_mount_to_camera r)) in
  vz t = vx t -> vz c = vx c ->
  as_ (decode_result c0) (encode_result r) =
  Ok (HER (he_converged r) (he_initial_cost_per_obs r) (he_final_cost_per_obs r) (he_target_mount_to_target r) (he_camera_mount_to_camera r) c0).
Proof. intros Rt Rc t c Ht Hc. rewrite result_reads. rewrite !swapped_same by assumption. reflexivity. Qed.
Lemma identity_kept : rigid (Iso (rot_z 0) vzero) /\ swapped (Iso (rot_z 0) vzero) = Iso (rot_z 0) vzero.
Proof.
  split; [ apply rot_z_rot | ]. apply swapped_same; [ apply rot_z_rot | ]. unfold eulerAngles210, rot_z. cbn [lin m00 m01 m02 m10 m11 m12 m20 m21 m22].
  rewrite cos_0, sin_0. assert (Z : forall y, y = 0 -> atan2 y 1 = 0). { intros y ->. unfold atan2. destruct (Rlt_dec 0 1); [ | lra ]. replace (0 / 1) with 0 by field. apply atan_0. }
  rewrite Z by reflexivity. destruct (Rlt_dec 0 0); [ lra | ]. cbn [vx vz]. rewrite cos_0, sin_0. replace (1 * 1 - 0 * - 0) with 1 by ring. apply Z. ring.
Qed.
