(** Printed reports. *)
From Coq Require Import Reals Lra Lia ZArith String List.
From Verif.Base Require Import Geom.
From Verif.Model Require Import Serialization Print.
From Verif.Spec Require Import YamlSpec PrintSpec.
From Verif.Proofs Require Import GeomLemmas RotLemmas AngleAxisLemmas EulerProofs.
Import ListNotations.
Local Open Scope string_scope.

Lemma stars_length n : String.length (stars n) = n.
Proof. induction n; cbn; [ reflexivity | rewrite IHn; reflexivity ]. Qed.
Lemma stars_only n : only_stars (stars n).
Proof. induction n; cbn; auto. Qed.
Lemma length_app a b : String.length (a ++ b) = (String.length a + String.length b)%nat.
Proof. induction a; cbn; [ reflexivity | rewrite IHa; reflexivity ]. Qed.

Lemma title_layout title width : exists bar side, printTitle title width = [bar; side ++ " " ++ title ++ " " ++ side; bar] /\
  only_stars bar /\ only_stars side /\ (3 <= String.length side)%nat /\ String.length (side ++ " " ++ title ++ " " ++ side) = String.length bar /\
  (width <= Z.of_nat (String.length bar) <= Z.max width (Z.of_nat (String.length title) + 8) + 1)%Z.
Proof.
  unfold printTitle. set (n := Z.of_nat (String.length title)). set (len := if Z.ltb (n + 8) width then width else (n + 8)%Z).
  assert (L : len = Z.max width (n + 8)) by (unfold len; destruct (Z.ltb_spec (n + 8) width); lia). set (d := ((len - n) / 2)%Z).
  assert (N : (0 <= n)%Z) by (unfold n; lia).
  assert (D : (len - n = 2 * d \/ len - n = 2 * d + 1)%Z). { pose proof (Z.div_mod (len - n) 2 ltac:(lia)). pose proof (Z.mod_pos_bound (len - n) 2 ltac:(lia)). fold d in H. lia. }
  destruct (Z.eqb_spec (d + d + n) len) as [E | E].
  - exists (stars (Z.to_nat len)), (stars (Z.to_nat (d - 1))). split; [ reflexivity | ]. rewrite !length_app, !stars_length. cbn [String.length]. split; [ apply stars_only | split; [ apply stars_only | ] ].
    unfold n in *. lia.
  - exists (stars (Z.to_nat (len + 1))), (stars (Z.to_nat d)). split; [ reflexivity | ]. rewrite !length_app, !stars_length. cbn [String.length]. split; [ apply stars_only | split; [ apply stars_only | ] ].
    unfold n in *. lia.
Qed.

Local Open Scope R_scope.
Lemma no_label_eqb s l : no_label s -> In l ["xyz="""; "rpy="""; "qxyzw="""; "DELTA S: "; "DELTA A: "] -> String.eqb s l = false.
Proof. intros N I. apply String.eqb_neq. intros ->. apply N, I. Qed.
Ltac lbl := cbn [app getStringXYZ getStringRPY getStringQuaternion said numbers String.eqb Ascii.eqb Bool.eqb];
  repeat (rewrite no_label_eqb by (assumption || (cbn; tauto)); cbn [app getStringXYZ getStringRPY getStringQuaternion said numbers String.eqb Ascii.eqb Bool.eqb]).
Section Report.
Variables parent child text : string.
Hypotheses (NP : no_label parent) (NC : no_label child) (NT : no_label text).

Lemma transform_numbers T : rigid T -> exists roll pitch yaw q,
  let out := printTransform T parent child text in
  matrices out = [T] /\ said "xyz=""" out = [xyz_numbers (tr T)] /\ said "rpy=""" out = [rpy_numbers roll pitch yaw] /\ said "qxyzw=""" out = [[qx q; qy q; qz q; qw q]] /\
  rpy_matrix roll pitch yaw = lin T /\ qnorm2 q = 1 /\ q_matrix q = lin T.
Proof.
  intros H. pose proof (euler_spec (lin T) H) as E. cbv zeta in E. exists (vz (eulerAngles210 (lin T))), (vy (eulerAngles210 (lin T))), (vx (eulerAngles210 (lin T))), (quat_of_mat (lin T)).
  cbv zeta. unfold printTransform, rpy_numbers, xyz_numbers, degrees.
  split; [ reflexivity | ]. split; [ lbl; reflexivity | ]. split; [ lbl; reflexivity | ]. split; [ lbl; reflexivity | ].
  split; [ exact E | split; [ apply quat_of_mat_unit, H | apply q_matrix_quat_of_mat, H ] ].
Qed.
Lemma diff_numbers T1 T2 : rigid T1 -> rigid T2 -> exists D angle roll pitch yaw,
  let out := printTransformDiff T1 T2 parent child text in
  let moved := vsub (tr T2) (tr T1) in
  iso_mul T1 D = T2 /\ rpy_matrix roll pitch yaw = lin D /\ turns_by (lin D) angle /\
  matrices out = [D] /\
  said "DELTA S: " out = [norm moved :: xyz_numbers moved; norm moved :: xyz_numbers (tr D)] /\
  said "DELTA A: " out = [degrees angle :: rpy_numbers roll pitch yaw; degrees angle :: rpy_numbers roll pitch yaw].
Proof.
  intros H1 H2. set (D := iso_mul (iso_inv T1) T2). assert (HD : rigid D) by (apply rigid_mul; [ apply rigid_inv, H1 | exact H2 ]).
  assert (ND : norm (tr D) = norm (vsub (tr T2) (tr T1))).
  { rewrite <- (rot_norm (mT (lin T1)) (vsub (tr T2) (tr T1))) by (apply is_rot_mT, H1). f_equal. unfold D. destruct T1 as [m1 t1], T2 as [m2 t2]. unfold iso_mul, iso_inv. cbn [lin tr]. geo_unfold. destruct m1, t1, t2. cbn. f_equal; ring. }
  pose proof (euler_spec (lin D) HD) as E. cbv zeta in E.
  exists D, (aa_angle (aa_of_mat (lin D))), (vz (eulerAngles210 (lin D))), (vy (eulerAngles210 (lin D))), (vx (eulerAngles210 (lin D))).
  cbv zeta. unfold printTransformDiff. fold D. cbv zeta. rewrite ND. replace (180 * aa_angle (aa_of_mat (lin D)) / PI) with (degrees (aa_angle (aa_of_mat (lin D)))) by (unfold degrees; f_equal; ring). unfold rpy_numbers, xyz_numbers.
  split; [ | split; [ exact E | split; [ | split; [ reflexivity | split; lbl; reflexivity ] ] ] ].
  - unfold D. rewrite <- iso_mul_assoc, iso_inv_r by exact H1. apply iso_mul_id_l.
  - destruct (aa_of_quat_spec _ (quat_of_mat_unit (lin D) HD)) as (A & B & C). rewrite q_matrix_quat_of_mat in C by exact HD. split; [ exact B | ]. exists (aa_axis (aa_of_mat (lin D))). split; [ exact A | exact C ].
Qed.
End Report.
Lemma opt_numbers conv a b : 0 <= a -> 0 <= b -> exists x y, let out := printOptResults conv a b in
  said "Did converge?: " out = [[if conv then 1 else 0]] /\ said "Initial cost?: " out = [[x]] /\ said "Final cost?: " out = [[y]] /\ 0 <= x /\ 0 <= y /\ x * x = a /\ y * y = b.
Proof. intros A B. exists (sqrt a), (sqrt b). cbv zeta. split; [ reflexivity | split; [ reflexivity | split; [ reflexivity | ] ] ]. split; [ apply sqrt_pos | split; [ apply sqrt_pos | split; apply sqrt_sqrt; assumption ] ]. Qed.
