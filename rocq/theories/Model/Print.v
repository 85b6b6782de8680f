(** Printed reports: rct_common/include/rct_common/print_utils.h (pu.h) *)
From Coq Require Import Reals ZArith Ascii String List.
From Verif.Base Require Import Geom.
From Verif.Model Require Import Serialization.
Import ListNotations.
Local Open Scope string_scope.

(** Characters on a stream. [std::string(n, c)]; a negative [n] is no case here. *)
Fixpoint stars (n : nat) : string := match n with 0 => "" | S m => String "*"%char (stars m) end.

(** pu.h:49-71, printTitle: the three lines. Lengths are small enough not to overflow an int. *)
Definition printTitle (title : string) (width : Z) : list string :=
  let n := Z.of_nat (String.length title) in
  let length := (n + 8)%Z in
  let length := if Z.ltb length width then width else length in
  let delta := ((length - n) / 2)%Z in
  let '(full, mid) :=
    if Z.eqb (delta + delta + n) length
    then (stars (Z.to_nat length), stars (Z.to_nat (delta - 1)))
    else (stars (Z.to_nat (length + 1)), stars (Z.to_nat delta)) in
  [full; mid ++ " " ++ title ++ " " ++ mid; full].

(** What is sent to a stream: text, numbers, 4x4 matrices, ends of lines. How many digits of a number are
    printed is left out. *)
Inductive token : Type := Text (s : string) | Number (r : R) | Matrix4 (T : iso) | Endl.

Local Open Scope R_scope.
(** pu.h:9-15, getStringRPY *)
Definition getStringRPY (rpy : vec3) : list token :=
  [Text "rpy="""; Number (vz rpy); Text "("; Number (vz rpy * 180 / PI); Text " deg) "; Number (vy rpy); Text "("; Number (vy rpy * 180 / PI); Text " deg) ";
   Number (vx rpy); Text "("; Number (vx rpy * 180 / PI); Text " deg)"""].
(** pu.h:17-22, getStringXYZ *)
Definition getStringXYZ (xyz : vec3) : list token := [Text "xyz="""; Number (vx xyz); Text " "; Number (vy xyz); Text " "; Number (vz xyz); Text """"].
(** pu.h:24-29, getStringQuaternion *)
Definition getStringQuaternion (q : quat) : list token :=
  [Text "qxyzw="""; Number (qx q); Text " "; Number (qy q); Text " "; Number (qz q); Text " "; Number (qw q); Text """"].
(** pu.h:73-85, printTransform. rotation() is taken for the linear part. *)
Definition printTransform (transform : iso) (parent_frame child_frame description : string) : list token :=
  let rpy := eulerAngles210 (lin transform) in
  let q := quat_of_mat (lin transform) in
  ([Text description; Text ":"; Endl; Matrix4 transform; Endl; Endl] ++
   [Text "--- URDF Format "; Text parent_frame; Text " to "; Text child_frame; Text " ---"; Endl] ++
   getStringXYZ (tr transform) ++ [Endl] ++ getStringRPY rpy ++ [Endl] ++ getStringQuaternion q ++ [Endl])%list.
(** pu.h:87-109, printTransformDiff *)
Definition printTransformDiff (transform1 transform2 : iso) (parent_frame child_frame description : string) : list token :=
  let delta := iso_mul (iso_inv transform1) transform2 in
  let aa := aa_of_mat (lin delta) in
  let rpy := eulerAngles210 (lin delta) in
  let trans := vsub (tr transform2) (tr transform1) in
  ([Text description; Text ":"; Endl] ++
   [Text "--- "; Text parent_frame; Text " to "; Text child_frame; Text " Diff ---"; Endl] ++
   [Text "DELTA S: "; Number (norm trans); Text " at "] ++ getStringXYZ trans ++ [Endl] ++
   [Text "DELTA A: "; Number (180 * aa_angle aa / PI); Text " and "] ++ getStringRPY rpy ++ [Endl; Endl] ++
   [Text "--- "; Text parent_frame; Text " to "; Text child_frame; Text " Diff Relative To Transform 1 ---"; Endl] ++
   [Matrix4 delta; Endl; Endl] ++
   [Text "DELTA S: "; Number (norm (tr delta)); Text " at "] ++ getStringXYZ (tr delta) ++ [Endl] ++
   [Text "DELTA A: "; Number (180 * aa_angle aa / PI); Text " and "] ++ getStringRPY rpy ++ [Endl])%list.
(** pu.h:111-116, printOptResults *)
Definition printOptResults (converged : bool) (initial_cost_per_obs final_cost_per_obs : R) : list token :=
  [Text "Did converge?: "; Number (if converged then 1 else 0); Endl;
   Text "Initial cost?: "; Number (sqrt initial_cost_per_obs); Text " (pixels per dot)"; Endl;
   Text "Final cost?: "; Number (sqrt final_cost_per_obs); Text " (pixels per dot)"; Endl].
