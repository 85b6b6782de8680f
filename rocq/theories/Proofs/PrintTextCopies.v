(** Printed differences and results, and what becomes of copied numbers. *)
From Coq Require Import Reals ZArith Arith Lia Lra Ascii String List.
From Flocq Require Import Core BinarySingleNaN.
From Verif.Base Require Import Float Geom Outcome.
From Verif.Model Require Import Pose Serialization Yaml Loaders NumberText PoseText DataSetText CovReport ParamText Print PrintText.
From Verif.Proofs Require Import PoseTextProofs.
From Verif.Spec Require Import TextSpec ParamTextSpec YamlSpec PrintSpec DataSetTextSpec PrintTextSpec.
From Verif.Proofs Require Import GeomLemmas RotLemmas AngleAxisLemmas EulerProofs FloatLemmas NumberTextProofs DataSetTextProofs TextProofs ParamTextProofs PrintTextProofs.
Import ListNotations.
Local Open Scope string_scope.
Local Existing Instance prec64.
Local Existing Instance emax64.

(** ** Differences *)
Lemma norm_vsub b a c : (norm a <= 2 ^ b)%R -> (norm c <= 2 ^ b)%R -> (norm (vsub a c) <= 2 ^ (S b))%R.
Proof.
  intros Ha Hc. cbn [pow]. set (w := (2 ^ b)%R) in *.
  assert (Ea : (norm a * norm a = dot a a)%R) by (apply sqrt_sqrt, dot_pos). assert (Ec : (norm c * norm c = dot c c)%R) by (apply sqrt_sqrt, dot_pos).
  pose proof (norm_nonneg a) as Na. pose proof (norm_nonneg c) as Nc.
  assert (Q : (dot (vsub a c) (vsub a c) <= 2 * (dot a a + dot c c))%R) by (destruct a as [a1 a2 a3], c as [c1 c2 c3]; unfold dot, vsub; cbn; pose proof (Rle_0_sqr (a1 + c1)); pose proof (Rle_0_sqr (a2 + c2)); pose proof (Rle_0_sqr (a3 + c3)); unfold Rsqr in *; lra).
  assert (norm a * norm a <= w * w)%R by (apply Rmult_le_compat; assumption). assert (norm c * norm c <= w * w)%R by (apply Rmult_le_compat; assumption).
  unfold norm at 1. rewrite <- (sqrt_Rsqr (2 * w)) by lra. apply sqrt_le_1_alt. unfold Rsqr. lra.
Qed.
Lemma diff_lines T1 T2 parent child text : one_line parent -> one_line child -> one_line text ->
  let D := iso_mul (iso_inv T1) T2 in let moved := vsub (tr T2) (tr T1) in let angle := (180 * aa_angle (aa_of_mat (lin D)) / PI)%R in
  lines_of (tokens_text (printTransformDiff T1 T2 parent child text)) =
  app [text ++ ":"; "--- " ++ parent ++ " to " ++ child ++ " Diff ---";
       "DELTA S: " ++ stream6 (norm moved) ++ " at " ++ tokens_text (getStringXYZ moved);
       "DELTA A: " ++ stream6 angle ++ " and " ++ tokens_text (getStringRPY (eulerAngles210 (lin D)));
       ""; "--- " ++ parent ++ " to " ++ child ++ " Diff Relative To Transform 1 ---"]
  (app (map (row_text D) (coefficients D))
      ["";
       "DELTA S: " ++ stream6 (norm (tr D)) ++ " at " ++ tokens_text (getStringXYZ (tr D));
       "DELTA A: " ++ stream6 angle ++ " and " ++ tokens_text (getStringRPY (eulerAngles210 (lin D))); ""]).
Proof.
  intros Hp Hc Ht D moved angle.
  change (printTransformDiff T1 T2 parent child text) with
    (app [Text text; Text ":"] (Endl :: app [Text "--- "; Text parent; Text " to "; Text child; Text " Diff ---"] (Endl ::
     app (Text "DELTA S: " :: Number (norm moved) :: Text " at " :: getStringXYZ moved) (Endl ::
     app (Text "DELTA A: " :: Number angle :: Text " and " :: getStringRPY (eulerAngles210 (lin D))) (Endl :: app [] (Endl ::
     app [Text "--- "; Text parent; Text " to "; Text child; Text " Diff Relative To Transform 1 ---"] (Endl ::
     Matrix4 D :: Endl :: app [] (Endl ::
     app (Text "DELTA S: " :: Number (norm (tr D)) :: Text " at " :: getStringXYZ (tr D)) (Endl ::
     app (Text "DELTA A: " :: Number angle :: Text " and " :: getStringRPY (eulerAngles210 (lin D))) (Endl :: [])))))))))).
  assert (P : forall r s v, one_line s -> Forall line_token (Text s :: Number r :: Text " at " :: getStringXYZ v))
    by (intros; constructor; [ assumption | constructor; [ exact I | constructor; [ cbn; repeat split; discriminate | apply plain_xyz ] ] ]).
  assert (Q : forall r s v, one_line s -> Forall line_token (Text s :: Number r :: Text " and " :: getStringRPY v))
    by (intros; constructor; [ assumption | constructor; [ exact I | constructor; [ cbn; repeat split; discriminate | apply plain_rpy ] ] ]).
  rewrite lines_tokens by (constructor; [ exact Ht | repeat constructor; discriminate ]).
  rewrite lines_tokens by (repeat constructor; try discriminate; assumption).
  rewrite lines_tokens by (apply P; cbn; repeat split; discriminate).
  rewrite lines_tokens by (apply Q; cbn; repeat split; discriminate).
  rewrite lines_tokens by constructor.
  rewrite lines_tokens by (repeat constructor; try discriminate; assumption).
  rewrite matrix_lines, lines_tokens by constructor.
  rewrite lines_tokens by (apply P; cbn; repeat split; discriminate).
  rewrite lines_tokens by (apply Q; cbn; repeat split; discriminate).
  rewrite !(tokens_cons (Text _)), !(tokens_cons (Number _)), !(tokens_cons (Text _)). cbn [token_text]. set (X := tokens_text (getStringXYZ moved)).
  set (Y := tokens_text (getStringXYZ (tr D))). set (Z := tokens_text (getStringRPY _)).
  cbn [tokens_text map String.concat lines_of]. rewrite !append_nil. reflexivity.
Qed.
Lemma diff_text T1 T2 parent child text : ordinary_pose T1 -> ordinary_pose T2 -> one_line parent -> one_line child -> one_line text ->
  exists D angle roll pitch yaw l1 l2 l3 l4 s a xyz1 xyz2 rpy,
    iso_mul T1 D = T2 /\ turns_by (lin D) angle /\ rpy_matrix roll pitch yaw = lin D /\
    lines_of (tokens_text (printTransformDiff T1 T2 parent child text)) =
      [text ++ ":"; "--- " ++ parent ++ " to " ++ child ++ " Diff ---"; "DELTA S: " ++ s ++ " at " ++ xyz1; "DELTA A: " ++ a ++ " and " ++ rpy; "";
       "--- " ++ parent ++ " to " ++ child ++ " Diff Relative To Transform 1 ---"; l1; l2; l3; l4; "";
       "DELTA S: " ++ s ++ " at " ++ xyz2; "DELTA A: " ++ a ++ " and " ++ rpy; ""] /\
    shows s (norm (vsub (tr T2) (tr T1))) /\ shows a (degrees angle) /\ shows_xyz xyz1 (vsub (tr T2) (tr T1)) /\ shows_xyz xyz2 (tr D) /\
    shows_rpy rpy roll pitch yaw /\ shows_matrix [l1; l2; l3; l4] D.
Proof.
  intros [H1 N1] [H2 N2] Hp Hc Ht. pose proof (diff_lines T1 T2 parent child text Hp Hc Ht) as L. cbv zeta in L.
  set (D := iso_mul (iso_inv T1) T2) in *. set (angle := aa_angle (aa_of_mat (lin D))) in *. set (e := eulerAngles210 (lin D)) in *.
  assert (HD : rigid D) by (apply rigid_mul; [ apply rigid_inv, H1 | exact H2 ]).
  pose proof (norm_vsub 900 _ _ N2 N1) as Nm.
  assert (ND : norm (tr D) = norm (vsub (tr T2) (tr T1))).
  { rewrite <- (rot_norm (mT (lin T1)) (vsub (tr T2) (tr T1))) by (apply is_rot_mT, H1). f_equal. unfold D. destruct T1 as [m1 t1], T2 as [m2 t2].
    unfold iso_mul, iso_inv. cbn [lin tr]. geo_unfold. destruct m1, t1, t2. cbn. f_equal; ring. }
  pose proof (matrix_shows D (coefficients_fit 901 D ltac:(lia) HD ltac:(rewrite ND; exact Nm))) as M. rewrite ND in L.
  unfold coefficients in L, M. cbn [map app] in L, M.
  replace (180 * angle / PI)%R with (degrees angle) in L by (unfold degrees; f_equal; ring).
  destruct (aa_of_quat_spec _ (quat_of_mat_unit (lin D) HD)) as (A & B & C). rewrite q_matrix_quat_of_mat in C by exact HD.
  exists D, angle, (vz e), (vy e), (vx e). do 4 eexists.
  exists (stream6 (norm (vsub (tr T2) (tr T1)))), (stream6 (degrees angle)), (tokens_text (getStringXYZ (vsub (tr T2) (tr T1)))),
    (tokens_text (getStringXYZ (tr D))), (tokens_text (getStringRPY e)).
  split; [ unfold D; rewrite <- iso_mul_assoc, iso_inv_r by exact H1; apply iso_mul_id_l | ].
  split; [ split; [ exact B | exists (aa_axis (aa_of_mat (lin D))); split; [ exact A | exact C ] ] | ].
  split; [ apply (euler_spec _ HD) | ]. split; [ exact L | ].
  split; [ apply stream_shows, (up_to 901); [ lia | rewrite Rabs_pos_eq by apply norm_nonneg; exact Nm ] | ].
  split; [ apply stream_shows, angle_fit; unfold angle, aa_of_mat; pose proof PI_RGT_0; lra | ].
  split; [ apply (xyz_shows _ 901); [ lia | exact Nm ] | ]. split; [ apply (xyz_shows _ 901); [ lia | rewrite ND; exact Nm ] | ].
  split; [ apply rpy_shows | exact M ].
Qed.

(** ** Results *)
Lemma one_text : stream6 1 = "1".
Proof.
  unfold stream6, streamed. assert (E : to_double 1 = dint 1).
  { apply double_back; [ apply (dint_val 1); lia | apply one_1000; rewrite Rabs_R1; lra | lra ]. }
  rewrite E. vm_compute. reflexivity.
Qed.
Lemma zero_double : to_double 0 = B754_zero false.
Proof.
  unfold to_double. replace (scaled_mantissa radix2 (FLT_exp (-1074) 53) 0) with 0%R by (unfold scaled_mantissa; ring).
  replace (ZnearestE 0) with 0%Z; [ reflexivity | ]. symmetry. apply (@Zrnd_IZR ZnearestE _ 0).
Qed.
Lemma zero_shown : stream6 0 = "0".
Proof. unfold stream6, streamed. rewrite zero_double. reflexivity. Qed.
Lemma sqrt_fit a : (0 <= a <= 2 ^ 1000)%R -> reasonable (sqrt a).
Proof.
  intros [H0 H]. unfold reasonable. rewrite Rabs_pos_eq by apply sqrt_pos. rewrite <- (sqrt_Rsqr (2 ^ 1000)) by (apply pow_le; lra).
  apply sqrt_le_1_alt. unfold Rsqr. assert (1 <= 2 ^ 1000)%R by (apply pow_R1_Rle; lra). nra.
Qed.
Lemma results_shown converged a b : (0 <= a <= 2 ^ 1000 -> 0 <= b <= 2 ^ 1000 -> exists x y c d,
  lines_of (tokens_text (printOptResults converged a b)) =
    ["Did converge?: " ++ (if converged then "1" else "0"); "Initial cost?: " ++ x ++ " (pixels per dot)"; "Final cost?: " ++ y ++ " (pixels per dot)"; ""]%string /\
  shows x c /\ shows y d /\ 0 <= c /\ 0 <= d /\ c * c = a /\ d * d = b)%R.
Proof.
  intros Ha Hb. exists (stream6 (sqrt a)), (stream6 (sqrt b)), (sqrt a), (sqrt b). split.
  - change (printOptResults converged a b) with
      (app [Text "Did converge?: "; Number (if converged then 1 else 0)] (Endl :: app [Text "Initial cost?: "; Number (sqrt a); Text " (pixels per dot)"] (Endl ::
       app [Text "Final cost?: "; Number (sqrt b); Text " (pixels per dot)"] (Endl :: [])))).
    rewrite !lines_tokens by (repeat constructor; discriminate).
    rewrite !(tokens_cons (Text _)), !(tokens_cons (Number _)). cbn [token_text tokens_text map String.concat lines_of]. rewrite !append_nil.
    destruct converged; [ rewrite one_text | rewrite zero_shown ]; reflexivity.
  - split; [ apply stream_shows, sqrt_fit, Ha | split; [ apply stream_shows, sqrt_fit, Hb | ] ].
    split; [ apply sqrt_pos | split; [ apply sqrt_pos | split; apply sqrt_sqrt; lra ] ].
Qed.
Lemma camera_shown k k1 k2 p1 p2 k3 title : one_line title ->
  Forall (fun r => (Rabs r <= 2 ^ 1000)%R) [fx k; fy k; cx k; cy k; k1; k2; p1; p2; k3] ->
  exists l1 l2 l3 texts,
    lines_of (printCameraIntrinsics stream6 k title) = [title ++ ":"; "Intr:"; l1; l2; ""] /\
    lines_of (printCameraDistortion stream6 k1 k2 p1 p2 k3 title) = [title ++ ":"; "Distortions:"; l3; ""] /\
    app (app (split tab_char l1) (split tab_char l2)) (split tab_char l3) =
    map (fun nt => fst nt ++ " = " ++ snd nt) (combine ["fx"; "fy"; "cx"; "cy"; "k1"; "k2"; "p1"; "p2"; "k3"] texts) /\
    Forall2 shows texts [fx k; fy k; cx k; cy k; k1; k2; p1; p2; k3].
Proof.
  intros Ht F. destruct (camera_fields stream6 (streamed_line 6) (tab_lacks 6) k k1 k2 p1 p2 k3 title Ht) as (l1 & l2 & l3 & A & B & C).
  exists l1, l2, l3, (map stream6 [fx k; fy k; cx k; cy k; k1; k2; p1; p2; k3]). split; [ exact A | split; [ exact B | split; [ exact C | ] ] ].
  induction F as [|r rs H F IH]; cbn [map]; constructor; [ apply stream_shows, H | exact IH ].
Qed.

(** ** Copies *)
Lemma shows_six t r : shows t r <-> exists y, read_number t = Some y /\ to_six_digits r (B2R y).
Proof. unfold shows, shows_digits, to_six_digits. replace (10 * 10 ^ 6)%R with (10 ^ 7)%R by ring. reflexivity. Qed.
Lemma tiny_1073 : (0 < / 2 ^ 1073 <= / 10 ^ 9)%R.
Proof.
  assert (2 ^ 1073 <> 0)%R by (apply pow_nonzero; lra). split; [ apply Rinv_0_lt_compat, pow_lt; lra | ].
  apply Rinv_le_contravar; [ apply pow_lt; lra | ]. apply Rle_trans with (2 ^ 40)%R; [ lra | ]. apply Rle_pow; [ lra | lia ].
Qed.
Lemma sin_le a : (Rabs (sin a) <= Rabs a)%R.
Proof.
  destruct (Rtotal_order a 0) as [H|[->|H]].
  - rewrite <- (Rabs_Ropp (sin a)), <- sin_neg, (Rabs_left a) by lra. assert (0 < - a)%R by lra. revert H0. generalize (- a)%R. intros b Hb.
    destruct (Rle_dec b 1) as [L|L]; [ | destruct (SIN_bound b); apply Rabs_le; lra ].
    pose proof (sin_lt_x b Hb). pose proof (sin_ge_0 b). pose proof PI2_1. apply Rabs_le. lra.
  - rewrite sin_0. lra.
  - rewrite (Rabs_pos_eq a) by lra. destruct (Rle_dec a 1) as [L|L]; [ | destruct (SIN_bound a); apply Rabs_le; lra ].
    pose proof (sin_lt_x a H). pose proof (sin_ge_0 a). pose proof PI2_1. apply Rabs_le. lra.
Qed.
Lemma sin_near a b : (Rabs (sin b - sin a) <= Rabs (b - a))%R.
Proof.
  rewrite form4. rewrite !Rabs_mult, (Rabs_pos_eq 2) by lra. pose proof (sin_le ((b - a) / 2)) as H.
  assert (E : (Rabs ((b - a) / 2) = Rabs (b - a) / 2)%R) by (unfold Rdiv; rewrite Rabs_mult, (Rabs_pos_eq (/ 2)) by lra; reflexivity).
  assert (C : (Rabs (cos ((b + a) / 2)) <= 1)%R) by (apply Rabs_le; destruct (COS_bound ((b + a) / 2)); lra).
  pose proof (Rabs_pos (cos ((b + a) / 2))). pose proof (Rabs_pos (sin ((b - a) / 2))). nra.
Qed.
Lemma cos_near a b : (Rabs (cos b - cos a) <= Rabs (b - a))%R.
Proof.
  rewrite !cos_sin. replace (b - a)%R with (PI / 2 + b - (PI / 2 + a))%R by ring. apply sin_near.
Qed.
Definition near_part (e n a a' : R) : Prop := (-1 <= a <= 1 /\ -1 <= a' <= 1 /\ - (n * e) <= a' - a <= n * e)%R.
Lemma near_product e n m a a' b b' : (0 <= e)%R -> (0 <= n)%R -> (0 <= m)%R -> near_part e n a a' -> near_part e m b b' -> near_part e (n + m) (a * b) (a' * b').
Proof.
  intros He Hn Hm (A1 & A2 & A3) (B1 & B2 & B3).
  assert (Q : forall u v k, (0 <= k -> - k <= u <= k -> -1 <= v <= 1 -> - k <= u * v <= k)%R) by (intros u v k Hk Hu Hv; split; nra).
  assert (0 <= n * e)%R by (apply Rmult_le_pos; assumption). assert (0 <= m * e)%R by (apply Rmult_le_pos; assumption).
  split; [ apply Q; lra | split; [ apply Q; lra | ] ]. replace (a' * b' - a * b)%R with ((a' - a) * b' + (b' - b) * a)%R by ring.
  pose proof (Q (a' - a)%R b' (n * e)%R ltac:(assumption) A3 B2). pose proof (Q (b' - b)%R a (m * e)%R ltac:(assumption) B3 A1). lra.
Qed.
Lemma rpy_near e r p y r' p' y' : (Rabs (r' - r) <= e -> Rabs (p' - p) <= e -> Rabs (y' - y) <= e -> near_matrix (5 * e) (rpy_matrix r p y) (rpy_matrix r' p' y'))%R.
Proof.
  intros Hr Hp Hy.
  assert (E0 : (0 <= e)%R) by (eapply Rle_trans; [ apply Rabs_pos | exact Hr ]).
  assert (S : forall a a', (Rabs (a' - a) <= e)%R -> near_part e 1 (sin a) (sin a') /\ near_part e 1 (cos a) (cos a')).
  { intros a a' H. pose proof (sin_near a a') as H1. pose proof (cos_near a a') as H2. pose proof (SIN_bound a). pose proof (SIN_bound a').
    pose proof (COS_bound a). pose proof (COS_bound a'). assert (Rabs (sin a' - sin a) <= e)%R as G1 by lra. assert (Rabs (cos a' - cos a) <= e)%R as G2 by lra.
    apply Rabs_le_inv in G1. apply Rabs_le_inv in G2. unfold near_part. repeat split; lra. }
  destruct (S _ _ Hr) as [Sr Cr]. destruct (S _ _ Hp) as [Sp Cp]. destruct (S _ _ Hy) as [Sy Cy]. clear S.
  assert (P2 : forall a a' b b', near_part e 1 a a' -> near_part e 1 b b' -> near_part e 2 (a * b) (a' * b')).
  { intros. replace 2%R with (1 + 1)%R by ring. apply near_product; lra || assumption. }
  assert (P3 : forall a a' b b', near_part e 2 a a' -> near_part e 1 b b' -> near_part e 3 (a * b) (a' * b')).
  { intros. replace 3%R with (2 + 1)%R by ring. apply near_product; lra || assumption. }
  pose proof (P2 _ _ _ _ Cy Cp) as Q1. pose proof (P2 _ _ _ _ Sy Cp) as Q2. pose proof (P2 _ _ _ _ Cy Sp) as Q3. pose proof (P2 _ _ _ _ Sy Sp) as Q4.
  pose proof (P3 _ _ _ _ Q3 Sr) as T1. pose proof (P3 _ _ _ _ Q3 Cr) as T2. pose proof (P3 _ _ _ _ Q4 Sr) as T3. pose proof (P3 _ _ _ _ Q4 Cr) as T4.
  pose proof (P2 _ _ _ _ Sy Cr) as U1. pose proof (P2 _ _ _ _ Sy Sr) as U2. pose proof (P2 _ _ _ _ Cy Cr) as U3. pose proof (P2 _ _ _ _ Cy Sr) as U4.
  pose proof (P2 _ _ _ _ Cp Sr) as V1. pose proof (P2 _ _ _ _ Cp Cr) as V2.
  assert (E : forall r p y, rpy_matrix r p y = M3 (cos y * cos p) (cos y * sin p * sin r - sin y * cos r) (cos y * sin p * cos r + sin y * sin r)
    (sin y * cos p) (sin y * sin p * sin r + cos y * cos r) (sin y * sin p * cos r - cos y * sin r) (- sin p) (cos p * sin r) (cos p * cos r)).
  { intros. unfold rpy_matrix, rot_x, rot_y, rot_z, mmul. cbn. f_equal; ring. }
  rewrite !E. clear E P2 P3. unfold near_part in *. intros entry He. cbn in He.
  repeat destruct He as [<- | He]; try contradiction; cbn; apply Rabs_le; lra.
Qed.
Lemma pose_good_lines t1 t2 t3 t4 t5 t6 t7 : Forall PoseTextProofs.one_line [t1; t2; t3; t4; t5; t6; t7] ->
  Forall good_entry [("x", t1); ("y", t2); ("z", t3); ("qw", t4); ("qx", t5); ("qy", t6); ("qz", t7)].
Proof.
  intros F. repeat (apply Forall_cons_iff in F as [? F]).
  repeat (constructor; [ split; [ cbn; repeat split | split; [ cbn; repeat split | split; [ assumption | discriminate ] ] ] | ]). constructor.
Qed.
Lemma streamed_entry p r : reasonable r -> PoseTextProofs.one_line (streamed p r).
Proof.
  intros H. unfold streamed. destruct (number_text p (to_double r)) as [t|] eqn:E; [ exact (number_one_line _ _ _ E) | ]. cbn. repeat split.
Qed.
Lemma six_unit r y : (Rabs r <= 1)%R -> to_six_digits r y -> (Rabs (y - r) <= 52 / 10 ^ 7)%R.
Proof. unfold to_six_digits. intros H D. pose proof tiny_1073. pose proof (Rabs_pos r). lra. Qed.
(** Copying position and quaternion into a pose file *)
Lemma copied_pose T parent child text : ordinary_pose T -> one_line parent -> one_line child -> one_line text ->
  exists x y z a b c d,
    In ("xyz=" ++ quote ++ x ++ " " ++ y ++ " " ++ z ++ quote) (lines_of (tokens_text (printTransform T parent child text))) /\
    In ("qxyzw=" ++ quote ++ a ++ " " ++ b ++ " " ++ c ++ " " ++ d ++ quote) (lines_of (tokens_text (printTransform T parent child text))) /\
    forall disk path, disk path = Some (flat_text [("x", x); ("y", y); ("z", z); ("qw", d); ("qx", a); ("qy", b); ("qz", c)]) ->
    exists P, loadPose_file (load_text disk) path = Ok P /\ near_matrix (7 / 10 ^ 5) (lin T) (lin P) /\
      to_six_digits (vx (tr T)) (vx (tr P)) /\ to_six_digits (vy (tr T)) (vy (tr P)) /\ to_six_digits (vz (tr T)) (vz (tr P)).
Proof.
  intros [H N] Hp Hc Ht. set (q := quat_of_mat (lin T)). destruct (norm_part (tr T)) as (X & Y & Z).
  destruct (unit_parts q (quat_of_mat_unit _ H)) as (W & QX & QY & QZ).
  exists (stream6 (vx (tr T))), (stream6 (vy (tr T))), (stream6 (vz (tr T))), (stream6 (qx q)), (stream6 (qy q)), (stream6 (qz q)), (stream6 (qw q)).
  rewrite (transform_lines T parent child text Hp Hc Ht). split; [ | split ].
  - rewrite <- (xyz_text (tr T)). right. apply in_or_app. right. cbn. tauto.
  - rewrite <- (quaternion_text q). right. apply in_or_app. right. cbn. tauto.
  - intros disk path D.
    assert (G : reasonable (vx (tr T)) /\ reasonable (vy (tr T)) /\ reasonable (vz (tr T)) /\ reasonable (qw q) /\ reasonable (qx q) /\ reasonable (qy q) /\ reasonable (qz q)).
    { repeat split; try (apply (up_to 900); [ lia | lra ]); apply small; lra. }
    destruct G as (G1 & G2 & G3 & G4 & G5 & G6 & G7).
    destruct (proj1 (shows_six _ _) (stream_shows _ G1)) as (y1 & R1 & D1). destruct (proj1 (shows_six _ _) (stream_shows _ G2)) as (y2 & R2 & D2).
    destruct (proj1 (shows_six _ _) (stream_shows _ G3)) as (y3 & R3 & D3). destruct (proj1 (shows_six _ _) (stream_shows _ G4)) as (y4 & R4 & D4).
    destruct (proj1 (shows_six _ _) (stream_shows _ G5)) as (y5 & R5 & D5). destruct (proj1 (shows_six _ _) (stream_shows _ G6)) as (y6 & R6 & D6).
    destruct (proj1 (shows_six _ _) (stream_shows _ G7)) as (y7 & R7 & D7).
    assert (GL : Forall PoseTextProofs.one_line [stream6 (vx (tr T)); stream6 (vy (tr T)); stream6 (vz (tr T)); stream6 (qw q); stream6 (qx q); stream6 (qy q); stream6 (qz q)])
      by (repeat (constructor; [ apply streamed_entry; assumption | ]); constructor).
    rewrite (load_pose _ _ _ _ D (flat_entries _ (pose_good_lines _ _ _ _ _ _ _ GL))).
    cbn [flat_node map fst snd].
    rewrite (value_read _ _ R1), (value_read _ _ R2), (value_read _ _ R3), (value_read _ _ R4), (value_read _ _ R5), (value_read _ _ R6), (value_read _ _ R7).
    exists (Iso (q_matrix (Q (B2R y4) (B2R y5) (B2R y6) (B2R y7))) (V3 (B2R y1) (B2R y2) (B2R y3))). split; [ reflexivity | ].
    cbn [lin tr vx vy vz]. split; [ | split; [ exact D1 | split; [ exact D2 | exact D3 ] ] ].
    rewrite <- (q_matrix_quat_of_mat (lin T)) by exact H. fold q.
    assert (M : near_matrix (12 * (52 / 10 ^ 7)) (q_matrix q) (q_matrix (Q (B2R y4) (B2R y5) (B2R y6) (B2R y7)))).
    { destruct q as [w x y z]. cbn [qw qx qy qz] in *. apply matrix_near; try assumption; try (apply six_unit; assumption). lra. }
    intros entry He. specialize (M entry He). lra.
Qed.
(** Using the copied roll, pitch and yaw *)
Lemma copied_rpy T parent child text : ordinary_pose T -> one_line parent -> one_line child -> one_line text ->
  exists r dr p dp y dy r' p' y',
    In ("rpy=" ++ quote ++ r ++ "(" ++ dr ++ " deg) " ++ p ++ "(" ++ dp ++ " deg) " ++ y ++ "(" ++ dy ++ " deg)" ++ quote)
       (lines_of (tokens_text (printTransform T parent child text))) /\
    read_number r = Some r' /\ read_number p = Some p' /\ read_number y = Some y' /\
    near_matrix (11 / 10 ^ 5) (lin T) (rpy_matrix (B2R r') (B2R p') (B2R y')).
Proof.
  intros [H N] Hp Hc Ht. pose proof (transform_lines T parent child text Hp Hc Ht) as L.
  pose proof (roll_range (lin T)) as A. pose proof (pitch_range (lin T)) as B. pose proof (yaw_range (lin T)) as C. cbv zeta in A, B, C.
  pose proof (rpy_text (eulerAngles210 (lin T))) as E. pose proof (euler_spec (lin T) H) as Em. cbv zeta in Em. set (e := eulerAngles210 (lin T)) in *.
  assert (S : forall a, (- PI < a <= PI)%R -> exists y, read_number (stream6 a) = Some y /\ (Rabs (B2R y - a) <= 22 / 10 ^ 6)%R).
  { intros a Ha. destruct (angle_fit a) as [G _]; [ lra | ]. destruct (proj1 (shows_six _ _) (stream_shows _ G)) as (y & R & D). exists y. split; [ exact R | ].
    unfold to_six_digits in D. pose proof tiny_1073. pose proof PI_4 as P4. assert (Rabs a <= 4)%R by (apply Rabs_le; lra). lra. }
  destruct (S _ A) as (yr & R1 & D1). destruct (S _ B) as (yp & R2 & D2). destruct (S _ C) as (yy & R3 & D3).
  exists (stream6 (vz e)), (stream6 (degrees (vz e))), (stream6 (vy e)), (stream6 (degrees (vy e))), (stream6 (vx e)), (stream6 (degrees (vx e))), yr, yp, yy.
  split; [ rewrite L, <- E; right; apply in_or_app; right; cbn; tauto | ]. split; [ exact R1 | split; [ exact R2 | split; [ exact R3 | ] ] ].
  rewrite <- Em. pose proof (rpy_near _ _ _ _ _ _ _ D1 D2 D3) as M. intros entry He. specialize (M entry He). lra.
Qed.
