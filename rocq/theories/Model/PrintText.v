(** The characters of printed transforms and results: rct_common/include/rct_common/print_utils.h (pu.h). What is sent to the
    stream is in Model/Print.v. *)
From Coq Require Import Reals Arith Ascii String List.
From Verif.Base Require Import Geom.
From Verif.Model Require Import NumberText DataSetText CovReport ParamText Print.
Import ListNotations.
Local Open Scope string_scope.

(** A number with [p] significant digits: the text of the double nearest to the real number; infinities and NaN are not
    considered. 6 digits are written on every stream whose format nobody has changed, and nobody changes that of std::cout: the
    only other formats, IOFormat(4, ...) at rct_examples/src/examples/kinematic_calibration.cpp:108 and
    rct_examples/src/tools/noise_qualification_2d.cpp:103, are those of one matrix. *)
Definition streamed (p : nat) (r : R) : string := match number_text p (to_double r) with Some t => t | None => "nan" end.
Definition stream6 : R -> string := streamed 6.

(** pu.h:78, [<< transform.matrix()]: Eigen/src/Core/IO.h, print_matrix with the default IOFormat. All coefficients are written
    right-aligned in the width of the longest, with one blank between two of a row. *)
Definition coefficients (T : iso) : list (list R) :=
  [[m00 (lin T); m01 (lin T); m02 (lin T); vx (tr T)];
   [m10 (lin T); m11 (lin T); m12 (lin T); vy (tr T)];
   [m20 (lin T); m21 (lin T); m22 (lin T); vz (tr T)];
   [0; 0; 0; 1]]%R.
Definition widest (cells : list (list string)) : nat := fold_left Nat.max (map String.length (concat cells)) 0%nat.
Definition matrix_text (T : iso) : string :=
  let cells := map (map stream6) (coefficients T) in
  String.concat newline (map (fun row => String.concat " " (map (setw (widest cells)) row)) cells).

Definition token_text (t : token) : string :=
  match t with
  | Text s => s
  | Number r => stream6 r
  | Matrix4 T => matrix_text T
  | Endl => newline
  end.
(** pu.h:73-85, 87-109 and 111-116 print such lists *)
Definition tokens_text (l : list token) : string := String.concat "" (map token_text l).
