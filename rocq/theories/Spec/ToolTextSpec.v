(** Pages: texts that consist of blocks of lines, one below the other. *)
From Coq Require Import Reals Ascii String List Sorted.
From Verif.Base Require Import Geom.
From Verif.Model Require Import Pose Covariance HandEye Pnp MultiCamera Intrinsic DataSet ExampleTools CameraTools.
From Verif.Spec Require Import TextSpec ParamTextSpec YamlSpec PrintSpec ToolSpec PrintTextSpec.
Import ListNotations.
Local Open Scope string_scope.

(** What some lines are *)
Definition block : Type := list string -> Prop.
(** Lines that are these blocks, one below the other, and a text with such lines *)
Definition consists (page : list block) (ls : list string) : Prop := exists parts, Forall2 (fun (b : block) part => b part) page parts /\ ls = concat parts.
Definition page_of (text : string) (page : list block) : Prop := exists ls, whole_lines text ls /\ consists page ls.

(** A blank line *)
Definition blank_line : block := fun ls => ls = [""].
(** A heading between stars *)
Fixpoint stars_only (s : string) : Prop := match s with EmptyString => True | String c r => c = "*"%char /\ stars_only r end.
Definition title_block (t : string) : block := fun ls =>
  exists full mid, ls = [full; mid ++ " " ++ t ++ " " ++ mid; full] /\ stars_only full /\ stars_only mid /\
    mid <> "" /\ String.length full = String.length (mid ++ " " ++ t ++ " " ++ mid).
(** Under a heading, the pose of [child] in [parent]: the matrix, and position, roll, pitch, yaw and quaternion *)
Definition transform_block (heading parent child : string) (T : iso) : block := fun ls =>
  exists l1 l2 l3 l4 xyz rpy qxyzw roll pitch yaw q,
    ls = [heading ++ ":"; l1; l2; l3; l4; ""; "--- URDF Format " ++ parent ++ " to " ++ child ++ " ---"; xyz; rpy; qxyzw] /\
    shows_matrix [l1; l2; l3; l4] T /\ shows_xyz xyz (tr T) /\ shows_rpy rpy roll pitch yaw /\ shows_quaternion qxyzw q /\
    rpy_matrix roll pitch yaw = lin T /\ qnorm2 q = 1%R /\ q_matrix q = lin T.
(** Under a heading, how far and by which angle two poses of [child] in [parent] differ, and the transform from the first to the
    second *)
Definition difference_block (heading parent child : string) (T1 T2 : iso) : block := fun ls =>
  exists D angle roll pitch yaw l1 l2 l3 l4 s a xyz1 xyz2 rpy,
    iso_mul T1 D = T2 /\ turns_by (lin D) angle /\ rpy_matrix roll pitch yaw = lin D /\
    ls = [heading ++ ":"; "--- " ++ parent ++ " to " ++ child ++ " Diff ---"; "DELTA S: " ++ s ++ " at " ++ xyz1; "DELTA A: " ++ a ++ " and " ++ rpy; "";
       "--- " ++ parent ++ " to " ++ child ++ " Diff Relative To Transform 1 ---"; l1; l2; l3; l4; "";
       "DELTA S: " ++ s ++ " at " ++ xyz2; "DELTA A: " ++ a ++ " and " ++ rpy] /\
    shows s (norm (vsub (tr T2) (tr T1))) /\ shows a (degrees angle) /\ shows_xyz xyz1 (vsub (tr T2) (tr T1)) /\ shows_xyz xyz2 (tr D) /\
    shows_rpy rpy roll pitch yaw /\ shows_matrix [l1; l2; l3; l4] D.
(** Whether the solver converged, and the square roots of the costs before and after *)
Definition results_block (converged : bool) (before after : R) : block := fun ls =>
  exists x y c d,
    ls = ["Did converge?: " ++ (if converged then "1" else "0"); "Initial cost?: " ++ x ++ " (pixels per dot)"; "Final cost?: " ++ y ++ " (pixels per dot)"]%string /\
    (shows x c /\ shows y d /\ 0 <= c /\ 0 <= d /\ c * c = before /\ d * d = after)%R.
(** Mean, standard deviation, smallest and largest of the errors in space; the standard deviation of one error is no number *)
Definition errors_block (nan : string) (e : error_stats) : block := fun ls =>
  exists m s a b,
    ls = ["3D reprojection error statistics:"; String tab_char ("Mean +/- Std. Dev. (m): " ++ m ++ " +/- " ++ s);
          String tab_char ("Min (m): " ++ a); String tab_char ("Max (m): " ++ b)] /\
    shows m (err_mean e) /\ match err_stdev e with Some r => shows s r | None => s = nan end /\ shows a (err_min e) /\ shows b (err_max e).
(** Means and standard deviations of the differences between calibrated and estimated poses *)
Definition differences_block (d : differences) : block := fun ls =>
  exists pm ps om os,
    ls = ["Difference in camera to target transform between extrinsic calibration and PnP optimization"; "Position:";
          String tab_char ("Mean (m): " ++ pm); String tab_char ("Std. Dev. (m): " ++ ps); "Orientation:";
          String tab_char ("Mean (deg): " ++ om); String tab_char ("Std. Dev. (deg): " ++ os)] /\
    shows pm (pos_mean d) /\ shows ps (pos_stdev d) /\ shows om (ori_mean_deg d) /\ shows os (ori_stdev_deg d).
(** The correlations above one half, the largest first, each with the names of both parameters, or that there are none; then a blank
    line *)
Definition correlations_block (half : string) (r : cov_result) : block := fun ls =>
  exists sel, (forall c, In c sel <-> In c (correlation_coeffs r) /\ (1 / 2 < Rabs (np_value c))%R) /\
    StronglySorted (fun a b => (Rabs (np_value b) <= Rabs (np_value a))%R) sel /\
    match sel with
    | [] => ls = ["No correlation coefficients with magnitude > " ++ half; ""]
    | _ => exists texts, ls = app ["" ; "Correlation Coeff. > " ++ half ++ ":"] (app (map (fun x => fst (np_names (fst x)) ++ " " ++ snd (np_names (fst x)) ++ " " ++ snd x) (combine sel texts)) [""]) /\
        List.length texts = List.length sel /\
        forall c t, In (c, t) (combine sel texts) -> (Rabs (np_value c) <= 2 ^ 1000)%R -> shows t (np_value c)
    end.
(** Under a heading, the focal lengths and the centre of a camera, or the coefficients of its lens *)
Definition camera_block (heading : string) (k : intrinsics) : block := fun ls =>
  exists l1 l2 a b c d, ls = [heading ++ ":"; "Intr:"; l1; l2] /\
    app (split tab_char l1) (split tab_char l2) = ["fx = " ++ a; "fy = " ++ b; "cx = " ++ c; "cy = " ++ d] /\
    shows a (fx k) /\ shows b (fy k) /\ shows c (cx k) /\ shows d (cy k).
Definition lens_block (heading : string) (k1 k2 p1 p2 k3 : R) : block := fun ls =>
  exists l a b c d e, ls = [heading ++ ":"; "Distortions:"; l] /\
    split tab_char l = ["k1 = " ++ a; "k2 = " ++ b; "p1 = " ++ c; "p2 = " ++ d; "k3 = " ++ e] /\
    shows a k1 /\ shows b k2 /\ shows c p1 /\ shows d p2 /\ shows e k3.

(** Costs and numbers that doubles hold easily *)
Definition ordinary_cost (c : R) : Prop := (0 <= c <= 2 ^ 1000)%R.
Definition ordinary_number (r : R) : Prop := (Rabs r <= 2 ^ 1000)%R.
Definition ordinary_errors (e : error_stats) : Prop :=
  ordinary_number (err_mean e) /\ match err_stdev e with Some r => ordinary_number r | None => True end /\
  ordinary_number (err_min e) /\ ordinary_number (err_max e).
Definition ordinary_differences (d : differences) : Prop :=
  ordinary_number (pos_mean d) /\ ordinary_number (pos_stdev d) /\ ordinary_number (ori_mean_deg d) /\ ordinary_number (ori_stdev_deg d).
(** A report whose numbers and poses are ordinary *)
Definition ordinary_result (r : he_result) : Prop :=
  ordinary_cost (he_initial_cost_per_obs r) /\ ordinary_cost (he_final_cost_per_obs r) /\
  ordinary_pose (he_camera_mount_to_camera r) /\ ordinary_pose (he_target_mount_to_target r).
Definition ordinary_report (rep : hand_eye_report) : Prop :=
  ordinary_result (rep_result rep) /\ ordinary_errors (rep_errors rep) /\ ordinary_differences (rep_differences rep).
Definition ordinary_estimate (r : mpnp_result) : Prop :=
  ordinary_cost (mr_initial_cost_per_obs r) /\ ordinary_cost (mr_final_cost_per_obs r) /\ ordinary_pose (mr_base_to_target r).
Definition ordinary_reprojection {image} (r : reprojection image) : Prop :=
  ordinary_estimate (rj_pnp r) /\ ordinary_pose (rj_camera_to_target r) /\ ordinary_pose (rj_pnp_camera_to_target r).
Definition ordinary_camera (k : intrinsics) : Prop := Forall ordinary_number [fx k; fy k; cx k; cy k].
(** Camera poses such that their relative poses are ordinary too *)
Definition ordinary_cameras (Cs : list iso) : Prop := forall C D, In C Cs -> In D Cs -> ordinary_pose C /\ ordinary_pose (iso_mul (iso_inv C) D).

(** ** Blocks that are repeated *)
(** Camera number c, and the target in image number i; the numbers are written in decimal. *)
Definition camera_called (c : nat) : string := "camera_" ++ to_string c.
Definition image_title (i : nat) : block := title_block ("REPROJECT IMAGE " ++ to_string i).
(** multi_static_camera_extrinsic: the camera's pose and its pose in camera 0 *)
Definition static_camera_blocks (C0 : iso) (x : nat * iso) : list block :=
  let '(c, C) := x in
  [transform_block ("BASE TO CAMERA (" ++ camera_called c ++ ")") "Base" (" Camera (" ++ camera_called c ++ ")") C; blank_line;
   transform_block ("CAMERA 0 TO CAMERA (" ++ camera_called c ++ ")") "Camera 0" (" Camera " ++ to_string c) (iso_mul (iso_inv C0) C); blank_line].
(** multi_static_camera_multi_step_extrinsic: the same *)
Definition step_camera_blocks (C0 : iso) (x : nat * iso) : list block :=
  let '(c, C) := x in
  [transform_block ("Base To Camera (" ++ camera_called c ++ ")") "Base" ("Camera (" ++ camera_called c ++ ")") C; blank_line;
   transform_block ("Camera 0 to Camera " ++ to_string c) "Camera 0" ("Camera (" ++ camera_called c ++ ")") (iso_mul (iso_inv C0) C); blank_line].
(** Under the number of an image: an estimate of the target's pose with costs, the calibrated pose [X] and the estimated one [Y] *)
Definition estimate_block (e : mpnp_result) : block := results_block (mr_converged e) (mr_initial_cost_per_obs e) (mr_final_cost_per_obs e).
Definition static_image_blocks (i : nat) (e : mpnp_result) (X Y : iso) : list block :=
  [image_title i; estimate_block e; blank_line; transform_block "CAMERA 0 TO TARGET" "Camera 0" "Target" X; blank_line;
   transform_block "PNP" "Camera 0" "Target" Y; blank_line; difference_block "PNP DIFF" "Camera 0" "Target" X Y; blank_line].
Definition step_image_blocks (i : nat) (e : mpnp_result) (X Y : iso) : list block :=
  [image_title i; estimate_block e; blank_line; transform_block "CAMERA 0 TO TARGET" "Camera 0" "Target" X; blank_line;
   difference_block "PNP" "Camera 0" "Target" X Y; blank_line].
Definition pnp_image_blocks (i : nat) (e : mpnp_result) (X Y : iso) : list block :=
  [image_title i; estimate_block e; blank_line; transform_block "BASE TO TARGET" "Base" "Target" X; blank_line;
   transform_block "PNP" "Base" "Target" Y; blank_line; difference_block "PNP Diff" "Base" "Target" X Y; blank_line].
(** The positions of a list with its entries *)
Definition with_number {A} (l : list A) : list (nat * A) := combine (seq 0 (List.length l)) l.
