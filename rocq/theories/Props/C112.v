(** C112: the characters of printed transforms and results. [tokens_text] puts what is sent to the stream into characters; numbers
    have six digits ([stream6]; Model/PrintText.v). [shows] and its relatives say what can be read in a line, [to_six_digits] how
    near to the number that is (Spec/PrintTextSpec.v). *)
From Coq Require Import Reals Ascii String List.
From Verif.Base Require Import Float Geom Outcome.
From Verif.Model Require Import Pose Loaders NumberText PoseText DataSetText CovReport ParamText Print PrintText.
From Verif.Spec Require Import TextSpec ParamTextSpec YamlSpec PrintSpec DataSetTextSpec PrintTextSpec.
From Verif.Proofs Require PrintTextProofs PrintTextCopies PrintTextExample.
From Flocq Require Import BinarySingleNaN.
Import ListNotations.
Local Open Scope string_scope.

(** A number printed with [p] digits can be read back to [p] digits, and nothing in it ends a line or a cell of a table. *)
Theorem C112_number :
  forall p r,
  (1 <= p <= 13)%nat -> (Rabs r <= 2 ^ 1000)%R ->
  shows_digits p (streamed p r) r /\ one_line (streamed p r) /\
  lacks " "%char (streamed p r) /\ lacks tab_char (streamed p r) /\ lacks bar (streamed p r).
Proof. exact PrintTextExample.number_printed. Qed.
Print Assumptions C112_number.

(** printTransform: the lines, with the matrix, the position, roll, pitch and yaw and the quaternion of the transform. *)
Theorem C112_transform :
  forall T parent child text,
  ordinary_pose T -> one_line parent -> one_line child -> one_line text ->
  exists l1 l2 l3 l4 xyz rpy qxyzw roll pitch yaw q,
    lines_of (tokens_text (printTransform T parent child text)) =
      [text ++ ":"; l1; l2; l3; l4; ""; "--- URDF Format " ++ parent ++ " to " ++ child ++ " ---"; xyz; rpy; qxyzw; ""] /\
    shows_matrix [l1; l2; l3; l4] T /\ shows_xyz xyz (tr T) /\ shows_rpy rpy roll pitch yaw /\ shows_quaternion qxyzw q /\
    rpy_matrix roll pitch yaw = lin T /\ qnorm2 q = 1%R /\ q_matrix q = lin T.
Proof. exact PrintTextProofs.transform_text. Qed.
Print Assumptions C112_transform.

(** A transform, printed. *)
Example C112_transform_case : exists rpy,
  lines_of (tokens_text (printTransform PrintTextExample.wall_camera "base" "camera" "Base to camera")) =
  ["Base to camera:";
   "   0    0    1 0.25";
   "   1    0    0   -2";
   "   0    1    0    3";
   "   0    0    0    1";
   ""; "--- URDF Format base to camera ---"; "xyz=""0.25 -2 3"""; rpy; "qxyzw=""0.5 0.5 0.5 0.5"""; ""].
Proof. exact PrintTextExample.wall_lines. Qed.

(** It is an ordinary pose, *)
Example C112_ordinary : ordinary_pose PrintTextExample.wall_camera.
Proof. exact PrintTextExample.wall_ordinary. Qed.

(** and the names are on one line. *)
Example C112_names : one_line "base" /\ one_line "camera" /\ one_line "Base to camera".
Proof. exact PrintTextExample.wall_plain. Qed.

(** printTransformDiff: the lines, with the transform from the first to the second, the distance and the angle. *)
Theorem C112_difference :
  forall T1 T2 parent child text,
  ordinary_pose T1 -> ordinary_pose T2 -> one_line parent -> one_line child -> one_line text ->
  exists D angle roll pitch yaw l1 l2 l3 l4 s a xyz1 xyz2 rpy,
    iso_mul T1 D = T2 /\ turns_by (lin D) angle /\ rpy_matrix roll pitch yaw = lin D /\
    lines_of (tokens_text (printTransformDiff T1 T2 parent child text)) =
      [text ++ ":"; "--- " ++ parent ++ " to " ++ child ++ " Diff ---"; "DELTA S: " ++ s ++ " at " ++ xyz1; "DELTA A: " ++ a ++ " and " ++ rpy; "";
       "--- " ++ parent ++ " to " ++ child ++ " Diff Relative To Transform 1 ---"; l1; l2; l3; l4; "";
       "DELTA S: " ++ s ++ " at " ++ xyz2; "DELTA A: " ++ a ++ " and " ++ rpy; ""] /\
    shows s (norm (vsub (tr T2) (tr T1))) /\ shows a (degrees angle) /\ shows_xyz xyz1 (vsub (tr T2) (tr T1)) /\ shows_xyz xyz2 (tr D) /\
    shows_rpy rpy roll pitch yaw /\ shows_matrix [l1; l2; l3; l4] D.
Proof. exact PrintTextCopies.diff_text. Qed.
Print Assumptions C112_difference.

(** printOptResults: convergence and the square roots of the costs. *)
Theorem C112_results :
  forall converged a b,
  (0 <= a <= 2 ^ 1000 -> 0 <= b <= 2 ^ 1000 -> exists x y c d,
  lines_of (tokens_text (printOptResults converged a b)) =
    ["Did converge?: " ++ (if converged then "1" else "0"); "Initial cost?: " ++ x ++ " (pixels per dot)"; "Final cost?: " ++ y ++ " (pixels per dot)"; ""]%string /\
  shows x c /\ shows y d /\ 0 <= c /\ 0 <= d /\ c * c = a /\ d * d = b)%R.
Proof. exact PrintTextCopies.results_shown. Qed.
Print Assumptions C112_results.

(** Camera parameters. *)
Theorem C112_camera :
  forall k k1 k2 p1 p2 k3 title,
  one_line title ->
  Forall (fun r => (Rabs r <= 2 ^ 1000)%R) [fx k; fy k; cx k; cy k; k1; k2; p1; p2; k3] ->
  exists l1 l2 l3 texts,
    lines_of (printCameraIntrinsics stream6 k title) = [title ++ ":"; "Intr:"; l1; l2; ""] /\
    lines_of (printCameraDistortion stream6 k1 k2 p1 p2 k3 title) = [title ++ ":"; "Distortions:"; l3; ""] /\
    app (app (split tab_char l1) (split tab_char l2)) (split tab_char l3) =
    map (fun nt => fst nt ++ " = " ++ snd nt) (combine ["fx"; "fy"; "cx"; "cy"; "k1"; "k2"; "p1"; "p2"; "k3"] texts) /\
    Forall2 shows texts [fx k; fy k; cx k; cy k; k1; k2; p1; p2; k3].
Proof. exact PrintTextCopies.camera_shown. Qed.
Print Assumptions C112_camera.

(** The printed position and quaternion, copied into a pose file, are loaded as the pose to six digits. *)
Theorem C112_copied_into_a_file :
  forall T parent child text,
  ordinary_pose T -> one_line parent -> one_line child -> one_line text ->
  exists x y z a b c d,
    In ("xyz=" ++ quote ++ x ++ " " ++ y ++ " " ++ z ++ quote) (lines_of (tokens_text (printTransform T parent child text))) /\
    In ("qxyzw=" ++ quote ++ a ++ " " ++ b ++ " " ++ c ++ " " ++ d ++ quote) (lines_of (tokens_text (printTransform T parent child text))) /\
    forall disk path, disk path = Some (flat_text [("x", x); ("y", y); ("z", z); ("qw", d); ("qx", a); ("qy", b); ("qz", c)]) ->
    exists P, loadPose_file (load_text disk) path = Ok P /\ near_matrix (7 / 10 ^ 5) (lin T) (lin P) /\
      to_six_digits (vx (tr T)) (vx (tr P)) /\ to_six_digits (vy (tr T)) (vy (tr P)) /\ to_six_digits (vz (tr T)) (vz (tr P)).
Proof. exact PrintTextCopies.copied_pose. Qed.
Print Assumptions C112_copied_into_a_file.

(** The printed roll, pitch and yaw give the rotation to four decimals. *)
Theorem C112_copied_angles :
  forall T parent child text,
  ordinary_pose T -> one_line parent -> one_line child -> one_line text ->
  exists r dr p dp y dy r' p' y',
    In ("rpy=" ++ quote ++ r ++ "(" ++ dr ++ " deg) " ++ p ++ "(" ++ dp ++ " deg) " ++ y ++ "(" ++ dy ++ " deg)" ++ quote)
       (lines_of (tokens_text (printTransform T parent child text))) /\
    read_number r = Some r' /\ read_number p = Some p' /\ read_number y = Some y' /\
    near_matrix (11 / 10 ^ 5) (lin T) (rpy_matrix (B2R r') (B2R p') (B2R y')).
Proof. exact PrintTextCopies.copied_rpy. Qed.
Print Assumptions C112_copied_angles.
