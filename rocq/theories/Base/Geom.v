(** Vectors, 3x3 matrices, rigid transforms and quaternions over the reals, with
    the Eigen and Ceres primitives the code uses. Definitions only. *)
From Coq Require Import Reals.
Local Open Scope R_scope.

(** std::numeric_limits<double>::epsilon() *)
Definition DBL_EPS : R := / 2 ^ 52.

Record vec2 := V2 { px : R; py : R }.
Record vec3 := V3 { vx : R; vy : R; vz : R }.
Record mat3 := M3 { m00 : R; m01 : R; m02 : R;
                    m10 : R; m11 : R; m12 : R;
                    m20 : R; m21 : R; m22 : R }.
(** Eigen::Isometry3d: linear part and translation. The type does not force the
    linear part to be a rotation, neither in Eigen nor here. *)
Record iso := Iso { lin : mat3; tr : vec3 }.
Record quat := Q { qw : R; qx : R; qy : R; qz : R }.

Definition vzero := V3 0 0 0.
Definition vadd a b := V3 (vx a + vx b) (vy a + vy b) (vz a + vz b).
Definition vsub a b := V3 (vx a - vx b) (vy a - vy b) (vz a - vz b).
Definition vneg a := V3 (- vx a) (- vy a) (- vz a).
Definition vscale k a := V3 (k * vx a) (k * vy a) (k * vz a).
Definition dot a b := vx a * vx b + vy a * vy b + vz a * vz b.
Definition cross a b := V3 (vy a * vz b - vz a * vy b)
                           (vz a * vx b - vx a * vz b)
                           (vx a * vy b - vy a * vx b).
Definition norm a := sqrt (dot a a).
Definition v2sub a b := V2 (px a - px b) (py a - py b).
Definition norm2 a := sqrt (px a * px a + py a * py a).

Definition unitX := V3 1 0 0.
Definition unitY := V3 0 1 0.
Definition unitZ := V3 0 0 1.

Definition I3 := M3 1 0 0 0 1 0 0 0 1.
Definition mT A := M3 (m00 A) (m10 A) (m20 A) (m01 A) (m11 A) (m21 A) (m02 A) (m12 A) (m22 A).
Definition mmul A B := M3
  (m00 A * m00 B + m01 A * m10 B + m02 A * m20 B)
  (m00 A * m01 B + m01 A * m11 B + m02 A * m21 B)
  (m00 A * m02 B + m01 A * m12 B + m02 A * m22 B)
  (m10 A * m00 B + m11 A * m10 B + m12 A * m20 B)
  (m10 A * m01 B + m11 A * m11 B + m12 A * m21 B)
  (m10 A * m02 B + m11 A * m12 B + m12 A * m22 B)
  (m20 A * m00 B + m21 A * m10 B + m22 A * m20 B)
  (m20 A * m01 B + m21 A * m11 B + m22 A * m21 B)
  (m20 A * m02 B + m21 A * m12 B + m22 A * m22 B).
Definition mvec A v := V3
  (m00 A * vx v + m01 A * vy v + m02 A * vz v)
  (m10 A * vx v + m11 A * vy v + m12 A * vz v)
  (m20 A * vx v + m21 A * vy v + m22 A * vz v).
Definition det A :=
  m00 A * (m11 A * m22 A - m12 A * m21 A)
  - m01 A * (m10 A * m22 A - m12 A * m20 A)
  + m02 A * (m10 A * m21 A - m11 A * m20 A).
Definition trace A := m00 A + m11 A + m22 A.

(** Column [c] of a matrix. *)
Definition col2 A := V3 (m02 A) (m12 A) (m22 A).

(** Proper rotations and rigid transforms. *)
Definition is_rot A := mmul (mT A) A = I3 /\ det A = 1.
Definition rigid T := is_rot (lin T).

Definition iso_id := Iso I3 vzero.
(** Eigen: T1 * T2, T * v. *)
Definition iso_mul S T := Iso (mmul (lin S) (lin T)) (vadd (mvec (lin S) (tr T)) (tr S)).
Definition iso_app T v := vadd (mvec (lin T) v) (tr T).
(** Eigen: Transform<.., Isometry>::inverse() transposes the linear part. *)
Definition iso_inv T := Iso (mT (lin T)) (vneg (mvec (mT (lin T)) (tr T))).
Definition iso_trans v := Iso I3 v.
Definition iso_rot A := Iso A vzero.

(** Eigen (3.3): MatrixBase::normalized() leaves a zero vector unchanged. *)
Definition normalized v :=
  if Rlt_dec 0 (dot v v) then vscale (/ norm v) v else v.

(** Eigen: AngleAxis::toRotationMatrix. *)
Definition aa_matrix (angle : R) (axis : vec3) : mat3 :=
  let s := sin angle in let c := cos angle in
  let sx := s * vx axis in let sy := s * vy axis in let sz := s * vz axis in
  let c1x := (1 - c) * vx axis in let c1y := (1 - c) * vy axis in let c1z := (1 - c) * vz axis in
  M3 (c1x * vx axis + c) (c1x * vy axis - sz) (c1x * vz axis + sy)
     (c1x * vy axis + sz) (c1y * vy axis + c) (c1y * vz axis - sx)
     (c1x * vz axis - sy) (c1y * vz axis + sx) (c1z * vz axis + c).

(** Ceres: AngleAxisRotatePoint. *)
Definition aa_rotate_point (aa pt : vec3) : vec3 :=
  let theta2 := dot aa aa in
  if Rlt_dec DBL_EPS theta2 then
    let theta := sqrt theta2 in
    let w := V3 (vx aa * / theta) (vy aa * / theta) (vz aa * / theta) in
    let wxp := cross w pt in
    let tmp := dot w pt * (1 - cos theta) in
    V3 (vx pt * cos theta + vx wxp * sin theta + vx w * tmp)
       (vy pt * cos theta + vy wxp * sin theta + vy w * tmp)
       (vz pt * cos theta + vz wxp * sin theta + vz w * tmp)
  else
    let wxp := cross aa pt in
    V3 (vx pt + vx wxp) (vy pt + vy wxp) (vz pt + vz wxp).

(** Eigen: Quaternion::toRotationMatrix. *)
Definition q_matrix (q : quat) : mat3 :=
  let tx := 2 * qx q in let ty := 2 * qy q in let tz := 2 * qz q in
  let twx := tx * qw q in let twy := ty * qw q in let twz := tz * qw q in
  let txx := tx * qx q in let txy := ty * qx q in let txz := tz * qx q in
  let tyy := ty * qy q in let tyz := tz * qy q in let tzz := tz * qz q in
  M3 (1 - (tyy + tzz)) (txy - twz) (txz + twy)
     (txy + twz) (1 - (txx + tzz)) (tyz - twx)
     (txz - twy) (tyz + twx) (1 - (txx + tyy)).

Definition qmul (a b : quat) : quat :=
  Q (qw a * qw b - qx a * qx b - qy a * qy b - qz a * qz b)
    (qw a * qx b + qx a * qw b + qy a * qz b - qz a * qy b)
    (qw a * qy b + qy a * qw b + qz a * qx b - qx a * qz b)
    (qw a * qz b + qz a * qw b + qx a * qy b - qy a * qx b).
Definition qconj (a : quat) : quat := Q (qw a) (- qx a) (- qy a) (- qz a).
Definition qneg (a : quat) : quat := Q (- qw a) (- qx a) (- qy a) (- qz a).
Definition qnorm2 (a : quat) : R := qw a * qw a + qx a * qx a + qy a * qy a + qz a * qz a.
Definition qvec (a : quat) : vec3 := V3 (qx a) (qy a) (qz a).

(** Eigen: Quaternion(Matrix3) (quaternionbase_assign_impl), four branches. *)
Definition quat_of_mat (m : mat3) : quat :=
  let t := trace m in
  if Rlt_dec 0 t then
    let t := sqrt (t + 1) in
    let w := / 2 * t in
    let t := (/ 2) / t in
    Q w ((m21 m - m12 m) * t) ((m02 m - m20 m) * t) ((m10 m - m01 m) * t)
  else
    (* i = 0; if (m11 > m00) i = 1; if (m22 > m(i,i)) i = 2; j = (i+1)%3; k = (j+1)%3 *)
    if Rlt_dec (m00 m) (m11 m) then
      if Rlt_dec (m11 m) (m22 m) then
        let t := sqrt (m22 m - m00 m - m11 m + 1) in
        let z := / 2 * t in let t := (/ 2) / t in
        Q ((m10 m - m01 m) * t) ((m02 m + m20 m) * t) ((m12 m + m21 m) * t) z
      else
        let t := sqrt (m11 m - m22 m - m00 m + 1) in
        let y := / 2 * t in let t := (/ 2) / t in
        Q ((m02 m - m20 m) * t) ((m01 m + m10 m) * t) y ((m21 m + m12 m) * t)
    else
      if Rlt_dec (m00 m) (m22 m) then
        let t := sqrt (m22 m - m00 m - m11 m + 1) in
        let z := / 2 * t in let t := (/ 2) / t in
        Q ((m10 m - m01 m) * t) ((m02 m + m20 m) * t) ((m12 m + m21 m) * t) z
      else
        let t := sqrt (m00 m - m11 m - m22 m + 1) in
        let x := / 2 * t in let t := (/ 2) / t in
        Q ((m21 m - m12 m) * t) x ((m10 m + m01 m) * t) ((m20 m + m02 m) * t).

(** std::atan2. *)
Definition atan2 (y x : R) : R :=
  if Rlt_dec 0 x then atan (y / x)
  else if Rlt_dec x 0 then
    (if Rle_dec 0 y then atan (y / x) + PI else atan (y / x) - PI)
  else if Rlt_dec 0 y then PI / 2
  else if Rlt_dec y 0 then - (PI / 2)
  else 0.

(** Eigen (3.3): AngleAxis(Quaternion). The stableNorm() recomputation for tiny
    norms is exact here because numbers are reals. *)
Record angleaxis := AA { aa_angle : R; aa_axis : vec3 }.
Definition aa_of_quat (q : quat) : angleaxis :=
  let n := norm (qvec q) in
  if Req_EM_T n 0 then AA 0 (V3 1 0 0)
  else
    let angle := 2 * atan2 n (Rabs (qw q)) in
    let n' := if Rlt_dec (qw q) 0 then - n else n in
    AA angle (V3 (qx q / n') (qy q / n') (qz q / n')).

(** Eigen: AngleAxis(Matrix3) goes through the quaternion. *)
Definition aa_of_mat (m : mat3) : angleaxis := aa_of_quat (quat_of_mat m).

(** Eigen: Quaternion::angularDistance(other) (3.3): d = this * other.conjugate();
    2 * atan2(d.vec().norm(), abs(d.w())). *)
Definition angular_distance (a b : quat) : R :=
  let d := qmul a (qconj b) in 2 * atan2 (norm (qvec d)) (Rabs (qw d)).
