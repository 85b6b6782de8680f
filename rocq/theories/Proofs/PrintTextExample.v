(** A printed transform, character by character. *)
From Coq Require Import Reals ZArith Arith Lia Lra Ascii String List.
From Flocq Require Import Core BinarySingleNaN.
From Verif.Base Require Import Float Geom Outcome.
From Verif.Model Require Import Pose NumberText DataSetText CovReport ParamText Print PrintText.
From Verif.Spec Require Import TextSpec YamlSpec DataSetTextSpec PrintTextSpec.
From Verif.Proofs Require Import GeomLemmas FloatLemmas NumberTextProofs DataSetTextProofs TextProofs PrintTextProofs PrintTextCopies.
Import ListNotations.
Local Open Scope string_scope.
Local Existing Instance prec64.
Local Existing Instance emax64.

Definition wall_camera : iso := Iso (lin third_pose) (V3 (/ 4) (-2) 3)%R.
Lemma wall_ordinary : ordinary_pose wall_camera.
Proof.
  split; [ exact (proj1 third_moderate) | ]. apply Rle_trans with (2 ^ 2)%R; [ | apply Rle_pow; [ lra | lia ] ].
  unfold norm, wall_camera, dot. cbn [tr vx vy vz]. rewrite <- (sqrt_Rsqr (2 ^ 2)) by lra. apply sqrt_le_1_alt. unfold Rsqr. lra.
Qed.
Lemma text_of (x : f64) r t : B2R x = r -> (Rabs r <= 4)%R -> (r <> 0)%R -> number_text 6 x = Some t -> stream6 r = t.
Proof. intros E B N T. unfold stream6, streamed. rewrite (double_back x r E (small_1000 _ B) N), T. reflexivity. Qed.
Lemma quarter_text : stream6 (/ 4) = "0.25".
Proof.
  apply (text_of (dnum 1 (-2)%Z)); [ | apply Rabs_le; lra | lra | vm_compute; reflexivity ].
  rewrite <- SF2R_B2SF. replace (B2SF (dnum 1 (-2)%Z)) with (SpecFloat.S754_finite false 4503599627370496%positive (-54)%Z) by (vm_compute; reflexivity).
  cbn. unfold F2R. cbn [Fnum Fexp]. change (bpow radix2 (-54)) with (/ bpow radix2 54)%R. rewrite <- IZR_Zpower by lia. cbn. lra.
Qed.
Lemma half_text : stream6 (/ 2) = "0.5".
Proof. apply (text_of PoseTextProofs.half); [ exact PoseTextProofs.half_value | apply Rabs_le; lra | lra | vm_compute; reflexivity ]. Qed.
Lemma two_text : stream6 (-2) = "-2".
Proof. apply (text_of (dint (-2)%Z)); [ apply (dint_val (-2)%Z); lia | apply Rabs_le; lra | lra | vm_compute; reflexivity ]. Qed.
Lemma three_text : stream6 3 = "3".
Proof. apply (text_of (dint 3)); [ apply (dint_val 3); lia | apply Rabs_le; lra | lra | vm_compute; reflexivity ]. Qed.
Lemma wall_lines : exists rpy,
  lines_of (tokens_text (printTransform wall_camera "base" "camera" "Base to camera")) =
  ["Base to camera:";
   "   0    0    1 0.25";
   "   1    0    0   -2";
   "   0    1    0    3";
   "   0    0    0    1";
   ""; "--- URDF Format base to camera ---"; "xyz=""0.25 -2 3"""; rpy; "qxyzw=""0.5 0.5 0.5 0.5"""; ""].
Proof.
  rewrite transform_lines by (cbn; repeat split; discriminate). unfold row_text, coefficients.
  change (quat_of_mat (lin wall_camera)) with (quat_of_mat (lin third_pose)). rewrite third_quat, quaternion_text, xyz_text. set (rpy := tokens_text (getStringRPY _)). exists rpy.
  cbn [map wall_camera third_pose lin tr m00 m01 m02 m10 m11 m12 m20 m21 m22 vx vy vz qx qy qz qw].
  rewrite quarter_text, half_text, two_text, three_text, one_text, zero_shown. reflexivity.
Qed.
Lemma wall_plain : one_line "base" /\ one_line "camera" /\ one_line "Base to camera".
Proof. cbn. repeat split; discriminate. Qed.
Lemma number_printed p r : (1 <= p <= 13)%nat -> (Rabs r <= 2 ^ 1000)%R ->
  shows_digits p (streamed p r) r /\ one_line (streamed p r) /\
  ParamTextSpec.lacks " "%char (streamed p r) /\ ParamTextSpec.lacks ParamTextSpec.tab_char (streamed p r) /\ ParamTextSpec.lacks ParamTextSpec.bar (streamed p r).
Proof.
  intros Hp Hr. split; [ exact (streamed_shows p r Hp Hr) | ]. split; [ apply streamed_line | ].
  split; [ apply blank_lacks | split; [ apply tab_lacks | apply bar_lacks ] ].
Qed.
