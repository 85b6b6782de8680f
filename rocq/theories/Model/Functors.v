(** The cost functors as templates over the number type. On doubles they are the residuals of the other model files
    (Proofs/FunctorProofs.v). rct_optimizations/include/rct_optimizations/ceres_math_utilities.h is cited as [cm],
    dh_chain.h as [dh], dh_chain_kinematic_calibration.h as kc.h. *)
From Coq Require Import Reals ZArith String List Bool.
From Verif.Base Require Import Geom Outcome Matrix.
From Verif.Model Require Import Pose HandEye DhChain Kinematic MaxLikelihood Jet.
Import ListNotations.
Local Open Scope R_scope.

Record gvec2 (A : Type) := G2 { g2x : A; g2y : A }.
Record gvec (A : Type) := G3 { gx : A; gy : A; gz : A }.
Record gmat (A : Type) := GM {
  g00 : A; g01 : A; g02 : A; g10 : A; g11 : A; g12 : A; g20 : A; g21 : A; g22 : A }.
Record giso (A : Type) := GI { glin : gmat A; gtr : gvec A }.
Record gquat (A : Type) := GQ { gw : A; gi : A; gj : A; gk : A }.
Record gvec4 (A : Type) := G4 { ge0 : A; ge1 : A; ge2 : A; ge3 : A }.
Arguments G2 {A}. Arguments g2x {A}. Arguments g2y {A}.
Arguments G3 {A}. Arguments gx {A}. Arguments gy {A}. Arguments gz {A}.
Arguments GM {A}. Arguments g00 {A}. Arguments g01 {A}. Arguments g02 {A}. Arguments g10 {A}. Arguments g11 {A}.
Arguments g12 {A}. Arguments g20 {A}. Arguments g21 {A}. Arguments g22 {A}.
Arguments GI {A}. Arguments glin {A}. Arguments gtr {A}.
Arguments GQ {A}. Arguments gw {A}. Arguments gi {A}. Arguments gj {A}. Arguments gk {A}.
Arguments G4 {A}. Arguments ge0 {A}. Arguments ge1 {A}. Arguments ge2 {A}. Arguments ge3 {A}.

Section Templates.
  Variable N : num.
  Notation S := (T N).
  Notation "a +! b" := (add N a b) (at level 50, left associativity).
  Notation "a -! b" := (sub N a b) (at level 50, left associativity).
  Notation "a *! b" := (mul N a b) (at level 40, left associativity).
  Notation "a /! b" := (div N a b) (at level 40, left associativity).
  Notation "# x" := (lit N x) (at level 5).

  (** cast<T>() *)
  Definition gcast (v : vec3) : gvec S := G3 #(vx v) #(vy v) #(vz v).
  Definition gcastM (m : mat3) : gmat S :=
    GM #(m00 m) #(m01 m) #(m02 m) #(m10 m) #(m11 m) #(m12 m) #(m20 m) #(m21 m) #(m22 m).
  Definition gcastI (t : iso) : giso S := GI (gcastM (lin t)) (gcast (tr t)).
  (** Eigen's vector, matrix and transform operations, as in Base/Geom.v *)
  Definition gadd (a b : gvec S) : gvec S := G3 (gx a +! gx b) (gy a +! gy b) (gz a +! gz b).
  Definition gneg (a : gvec S) : gvec S := G3 (opp N (gx a)) (opp N (gy a)) (opp N (gz a)).
  Definition gdot (a b : gvec S) : S := gx a *! gx b +! gy a *! gy b +! gz a *! gz b.
  Definition gcross (a b : gvec S) : gvec S :=
    G3 (gy a *! gz b -! gz a *! gy b) (gz a *! gx b -! gx a *! gz b) (gx a *! gy b -! gy a *! gx b).
  Definition gnorm (a : gvec S) : S := nsqrt N (gdot a a).
  Definition gnormalized (v : gvec S) : gvec S :=
    let z := gdot v v in
    if gt N z #0 then let n := nsqrt N z in G3 (gx v /! n) (gy v /! n) (gz v /! n) else v.
  Definition gT (m : gmat S) : gmat S :=
    GM (g00 m) (g10 m) (g20 m) (g01 m) (g11 m) (g21 m) (g02 m) (g12 m) (g22 m).
  Definition gmmul (A B : gmat S) : gmat S := GM
    (g00 A *! g00 B +! g01 A *! g10 B +! g02 A *! g20 B)
    (g00 A *! g01 B +! g01 A *! g11 B +! g02 A *! g21 B)
    (g00 A *! g02 B +! g01 A *! g12 B +! g02 A *! g22 B)
    (g10 A *! g00 B +! g11 A *! g10 B +! g12 A *! g20 B)
    (g10 A *! g01 B +! g11 A *! g11 B +! g12 A *! g21 B)
    (g10 A *! g02 B +! g11 A *! g12 B +! g12 A *! g22 B)
    (g20 A *! g00 B +! g21 A *! g10 B +! g22 A *! g20 B)
    (g20 A *! g01 B +! g21 A *! g11 B +! g22 A *! g21 B)
    (g20 A *! g02 B +! g21 A *! g12 B +! g22 A *! g22 B).
  Definition gmvec (A : gmat S) (v : gvec S) : gvec S := G3
    (g00 A *! gx v +! g01 A *! gy v +! g02 A *! gz v)
    (g10 A *! gx v +! g11 A *! gy v +! g12 A *! gz v)
    (g20 A *! gx v +! g21 A *! gy v +! g22 A *! gz v).
  Definition gI3 : gmat S := GM #1 #0 #0 #0 #1 #0 #0 #0 #1.
  Definition g0 : gvec S := G3 #0 #0 #0.
  Definition giso_mul (a b : giso S) : giso S := GI (gmmul (glin a) (glin b)) (gadd (gmvec (glin a) (gtr b)) (gtr a)).
  Definition giso_app (a : giso S) (v : gvec S) : gvec S := gadd (gmvec (glin a) v) (gtr a).
  Definition giso_inv (a : giso S) : giso S := GI (gT (glin a)) (gneg (gmvec (gT (glin a)) (gtr a))).
  Definition giso_trans (v : gvec S) : giso S := GI gI3 v.
  Definition giso_rot (m : gmat S) : giso S := GI m g0.
  Definition giso_id : giso S := GI gI3 g0.
  (** Eigen: AngleAxis::toRotationMatrix *)
  Definition gaa_matrix (angle : S) (axis : gvec S) : gmat S :=
    let s := nsin N angle in let c := ncos N angle in
    let sx := s *! gx axis in let sy := s *! gy axis in let sz := s *! gz axis in
    let c1x := (#1 -! c) *! gx axis in let c1y := (#1 -! c) *! gy axis in let c1z := (#1 -! c) *! gz axis in
    GM (c1x *! gx axis +! c) (c1x *! gy axis -! sz) (c1x *! gz axis +! sy)
       (c1x *! gy axis +! sz) (c1y *! gy axis +! c) (c1y *! gz axis -! sx)
       (c1x *! gz axis -! sy) (c1y *! gz axis +! sx) (c1z *! gz axis +! c).
  (** Ceres: AngleAxisRotatePoint *)
  Definition gaa_rotate_point (aa pt : gvec S) : gvec S :=
    let theta2 := gdot aa aa in
    if gt N theta2 #DBL_EPS then
      let theta := nsqrt N theta2 in
      let costheta := ncos N theta in
      let sintheta := nsin N theta in
      let theta_inverse := #1 /! theta in
      let w := G3 (gx aa *! theta_inverse) (gy aa *! theta_inverse) (gz aa *! theta_inverse) in
      let wxp := gcross w pt in
      let tmp := gdot w pt *! (#1 -! costheta) in
      G3 (gx pt *! costheta +! gx wxp *! sintheta +! gx w *! tmp)
         (gy pt *! costheta +! gy wxp *! sintheta +! gy w *! tmp)
         (gz pt *! costheta +! gz wxp *! sintheta +! gz w *! tmp)
    else
      let wxp := gcross aa pt in
      G3 (gx pt +! gx wxp) (gy pt +! gy wxp) (gz pt +! gz wxp).

  (** [cm]:9-17 *)
  Definition gtransformPoint (angle_axis tx point : gvec S) : gvec S :=
    let t_point := gaa_rotate_point angle_axis point in
    G3 (gx t_point +! gx tx) (gy t_point +! gy tx) (gz t_point +! gz tx).
  (** [cm]:19-34 *)
  Definition gposeTransformPoint (pose : pose6) (point : gvec S) : gvec S :=
    gtransformPoint (G3 #(p_rx pose) #(p_ry pose) #(p_rz pose)) (G3 #(p_x pose) #(p_y pose) #(p_z pose)) point.
  (** [cm]:36-61 *)
  Definition gprojectPoint_arr (intr : intrinsics) (point : gvec S) : gvec2 S :=
    let xp := if is_zero N (gz point) then gx point else gx point /! gz point in
    let yp := if is_zero N (gz point) then gy point else gy point /! gz point in
    G2 (#(fx intr) *! xp +! #(cx intr)) (#(fy intr) *! yp +! #(cy intr)).
  (** [cm]:63-91 *)
  Definition gprojectPoint_eig (intr : intrinsics) (point : gvec S) : gvec2 S :=
    let scaled_point :=
      if gt N (gz point -! #0) #(1 / 10 ^ 10)
      then G3 (gx point /! gz point) (gy point /! gz point) #1
      else G3 (gx point) (gy point) #1 in
    let image_pt := gmvec (gcastM (M3 (fx intr) 0 (cx intr) 0 (fy intr) (cy intr) 0 0 1)) scaled_point in
    G2 (gx image_pt) (gy image_pt).

  (** Parameters: block and element to value. A pose block holds the rotation vector first. *)
  Definition gread (m : nat -> nat -> S) (b i : nat) : gvec S := G3 (m b i) (m b (i + 1)%nat) (m b (i + 2)%nat).
  Definition gaa (m : nat -> nat -> S) (b : nat) : gvec S := gread m b 0.
  Definition gpos (m : nat -> nat -> S) (b : nat) : gvec S := gread m b 3.
  Definition image_error (intr : intrinsics) (camera_point : gvec S) (obs : vec2) : list S :=
    let xy_image := gprojectPoint_arr intr camera_point in [g2x xy_image -! #(px obs); g2y xy_image -! #(py obs)].
  Definition point_error (camera_point : gvec S) (obs : vec3) : list S :=
    [gx camera_point -! #(vx obs); gy camera_point -! #(vy obs); gz camera_point -! #(vz obs)].

  (** pnp.cpp:25-31, 63-69; blocks: rotation vector, translation *)
  Definition gpnp_transform (m : nat -> nat -> S) : giso S :=
    let aa := gread m 0 0 in
    giso_mul (giso_trans (gread m 1 0)) (giso_rot (gaa_matrix (gnorm aa) (gnormalized aa))).
  (** pnp.cpp:18-42 *)
  Definition gpnp_cost (intr : intrinsics) (in_target_ : vec3) (in_image_ : vec2) (m : nat -> nat -> S) : list S :=
    let camera_pt := giso_app (gpnp_transform m) (gcast in_target_) in
    let xy_image := gprojectPoint_eig intr camera_pt in
    [g2x xy_image -! #(px in_image_); g2y xy_image -! #(py in_image_)].
  (** pnp.cpp:57-78 *)
  Definition gpnp_cost3D (in_target_ in_image_ : vec3) (m : nat -> nat -> S) : list S :=
    point_error (giso_app (gpnp_transform m) (gcast in_target_)) in_image_.

  (** extrinsic_hand_eye.cpp:41-65; blocks: camera pose, target pose *)
  Definition ggetTargetPointInCamera {I} (c : obs_cost I) (m : nat -> nat -> S) : gvec S :=
    let target_mount_point := gtransformPoint (gaa m 1) (gpos m 1) (gcast (oc_target_pt c)) in
    let world_point := gposeTransformPoint (oc_base_to_target_mount c) target_mount_point in
    let camera_mount_point := gposeTransformPoint (oc_camera_mount_to_base c) world_point in
    gtransformPoint (gaa m 0) (gpos m 0) camera_mount_point.
  (** extrinsic_hand_eye.cpp:89-105 *)
  Definition gcost2D3D (c : obs_cost vec2) (intr : intrinsics) (m : nat -> nat -> S) : list S :=
    image_error intr (ggetTargetPointInCamera c m) (oc_obs c).
  (** extrinsic_hand_eye.cpp:119-132 *)
  Definition gcost3D3D (c : obs_cost vec3) (m : nat -> nat -> S) : list S :=
    point_error (ggetTargetPointInCamera c m) (oc_obs c).

  (** extrinsic_multi_static_camera.cpp:14-63; blocks: camera, target *)
  Definition gstatic_cost (obs_ : vec2) (intr_ : intrinsics) (base_to_wrist : iso) (target_pt_ : vec3)
    (m : nat -> nat -> S) : list S :=
    let link_point := gtransformPoint (gaa m 1) (gpos m 1) (gcast target_pt_) in
    let world_point := gposeTransformPoint (poseEigenToCal base_to_wrist) link_point in
    image_error intr_ (gtransformPoint (gaa m 0) (gpos m 0) world_point) obs_.
  (** extrinsic_multi_static_camera_only.cpp:13-58; blocks: camera, target *)
  Definition gfree_camera_cost (obs_ : vec2) (intr_ : intrinsics) (target_pt_ : vec3) (m : nat -> nat -> S) : list S :=
    let world_point := gtransformPoint (gaa m 1) (gpos m 1) (gcast target_pt_) in
    image_error intr_ (gtransformPoint (gaa m 0) (gpos m 0) world_point) obs_.
  (** extrinsic_multi_static_camera_only.cpp:60-104, and multi_camera_pnp.cpp:12-56 with [camera_to_base] given; block: target *)
  Definition gfixed_cost (obs_ : vec2) (intr_ : intrinsics) (camera_to_base : pose6) (target_pt_ : vec3)
    (m : nat -> nat -> S) : list S :=
    let world_point := gtransformPoint (gaa m 0) (gpos m 0) (gcast target_pt_) in
    image_error intr_ (gposeTransformPoint camera_to_base world_point) obs_.
  (** extrinsic_multi_static_camera_wrist_only.cpp:13-70; blocks: correction, target *)
  Definition gwrist_cost (obs_ : vec2) (intr_ : intrinsics) (base_to_wrist base_to_camera : iso) (target_pt_ : vec3)
    (m : nat -> nat -> S) : list S :=
    let link_point := gtransformPoint (gaa m 1) (gpos m 1) (gcast target_pt_) in
    let world_point := gposeTransformPoint (poseEigenToCal base_to_wrist) link_point in
    let camera_point_orig := gtransformPoint (gaa m 0) (gpos m 0) world_point in
    image_error intr_ (gposeTransformPoint (poseEigenToCal (iso_inv base_to_camera)) camera_point_orig) obs_.

  (** camera_intrinsic.cpp:65-111 *)
  Definition gprojectPoints2 (camera_intr : nat -> S) (pt : gvec S) : gvec2 S :=
    let k1 := camera_intr 4%nat in
    let k2 := camera_intr 5%nat in
    let p1 := camera_intr 6%nat in
    let p2 := camera_intr 7%nat in
    let k3 := camera_intr 8%nat in
    let xp := if is_zero N (gz pt) then gx pt else gx pt /! gz pt in
    let yp := if is_zero N (gz pt) then gy pt else gy pt /! gz pt in
    let xp2 := xp *! xp in
    let yp2 := yp *! yp in
    let r2 := xp2 +! yp2 in
    let r4 := r2 *! r2 in
    let r6 := r2 *! r4 in
    let xpp := xp +! k1 *! r2 *! xp +! k2 *! r4 *! xp +! k3 *! r6 *! xp +! p2 *! (r2 +! #2 *! xp2) +! p1 *! xp *! yp *! #2 in
    let ypp := yp +! k1 *! r2 *! yp +! k2 *! r4 *! yp +! k3 *! r6 *! yp +! p1 *! (r2 +! #2 *! yp2) +! p2 *! xp *! yp *! #2 in
    G2 (camera_intr 0%nat *! xpp +! camera_intr 2%nat) (camera_intr 1%nat *! ypp +! camera_intr 3%nat).
  (** camera_intrinsic.cpp:140-162; blocks: target pose, nine camera parameters *)
  Definition gintrinsic_cost (in_target_ : vec3) (in_image_ : vec2) (m : nat -> nat -> S) : list S :=
    let camera_point := gtransformPoint (gaa m 0) (gpos m 0) (gcast in_target_) in
    let xy_image := gprojectPoints2 (m 1%nat) camera_point in
    [g2x xy_image -! #(px in_image_); g2y xy_image -! #(py in_image_)].

  (** circle_fit.h:23-33; block: x, y, square root of the radius *)
  Definition gcircle_cost (x_ y_ : R) (m : nat -> nat -> S) : list S :=
    let r := m 0%nat 2%nat *! m 0%nat 2%nat in
    let x_pos := #x_ -! m 0%nat 0%nat in
    let y_pos := #y_ -! m 0%nat 1%nat in
    [r *! r -! x_pos *! x_pos -! y_pos *! y_pos].

  (** maximum_likelihood.h:26-36; block: the parameter *)
  Definition gml_residual (ml : max_likelihood) (m : nat -> nat -> S) : res (list S) :=
    let mean := ml_mean ml in
    let stdev := ml_stdev ml in
    if andb (Nat.eqb (rows mean) (rows stdev)) (Nat.eqb (cols mean) (cols stdev)) then
      let r := rows mean in
      Ok (flat_map (fun j => map (fun i => (m 0%nat (j * r + i)%nat -! #(ent mean i j)) /! #(ent stdev i j)) (seq 0 r))
           (seq 0 (cols mean)))
    else UB.

  (** local_parameterization.h:51-77; Eigen: Quaternion product *)
  Definition gqmul (a b : gquat S) : gquat S :=
    GQ (gw a *! gw b -! gi a *! gi b -! gj a *! gj b -! gk a *! gk b)
       (gw a *! gi b +! gi a *! gw b +! gj a *! gk b -! gk a *! gj b)
       (gw a *! gj b +! gj a *! gw b +! gk a *! gi b -! gi a *! gk b)
       (gw a *! gk b +! gk a *! gw b +! gi a *! gj b -! gj a *! gi b).
  Definition gquaternion_plus (x : gquat S) (delta : gvec S) : gquat S :=
    let norm_delta := nsqrt N (gx delta *! gx delta +! gy delta *! gy delta +! gz delta *! gz delta) in
    let q_delta :=
      if gt N norm_delta #0 then
        let sin_delta_by_delta := nsin N norm_delta /! norm_delta in
        GQ (ncos N norm_delta) (sin_delta_by_delta *! gx delta) (sin_delta_by_delta *! gy delta)
           (sin_delta_by_delta *! gz delta)
      else GQ #1 (gx delta) (gy delta) (gz delta) in
    gqmul q_delta x.

  (** Blocks: x, delta; quaternions are stored as x, y, z, w *)
  Definition gplus_arrays (m : nat -> nat -> S) : list S :=
    let q := gquaternion_plus (GQ (m 0%nat 3%nat) (m 0%nat 0%nat) (m 0%nat 1%nat) (m 0%nat 2%nat)) (gread m 1 0) in
    [gi q; gj q; gk q; gw q].

  (** kc.h:150-164; the blocks are numbered as in constructParameters *)
  Definition gcreateTransform (t aa : gvec S) : giso S :=
    let result := giso_mul giso_id (giso_trans t) in
    let aa_norm := gnorm aa in
    if gt N aa_norm (eps N) then giso_mul result (giso_rot (gaa_matrix aa_norm (gnormalized aa))) else result.
  (** [dh]:64-93 *)
  Definition gcreateRelativeTransform (t : dh_transform) (joint_value : S) (offsets : gvec4 S) : res (giso S) :=
    let p := G4 (#(e0 (params t)) +! ge0 offsets) (#(e1 (params t)) +! ge1 offsets)
                (#(e2 (params t)) +! ge2 offsets) (#(e3 (params t)) +! ge3 offsets) in
    do p <-
      match jtype t with
      | LINEAR => Ok (G4 (ge0 p +! joint_value) (ge1 p) (ge2 p) (ge3 p))
      | REVOLUTE => Ok (G4 (ge0 p) (ge1 p +! joint_value) (ge2 p) (ge3 p))
      | OTHER => Throw RuntimeError
      end;
    let transform := giso_mul giso_id (giso_trans (G3 #0 #0 (ge0 p))) in
    let transform := giso_mul transform (giso_rot (gaa_matrix (ge1 p) (gcast unitZ))) in
    let transform := giso_mul transform (giso_trans (G3 (ge2 p) #0 #0)) in
    Ok (giso_mul transform (giso_rot (gaa_matrix (ge3 p) (gcast unitX)))).
  (** [dh]:168-193; [offsets] has [dof c] rows, as in both functors *)
  Definition ggetFK (c : dh_chain) (joint_values : list R) (offsets : nat -> nat -> S) : res (giso S) :=
    if Nat.ltb (dof c) (List.length joint_values) then Throw RuntimeError
    else
      foldM (fun transform i =>
          do t <- at_ (transforms c) i;
          do joint <- idx joint_values i;
          do rel <- gcreateRelativeTransform t #joint (G4 (offsets i 0%nat) (offsets i 1%nat) (offsets i 2%nat) (offsets i 3%nat));
          Ok (giso_mul transform rel))
        (seq 0 (List.length joint_values)) (gcastI (base_offset c)).
  (** kc.h:285-323 and 354-392; Map<Matrix<T, Dynamic, 4>> is column-major *)
  Definition gcamera_to_target (camera_chain target_chain : dh_chain) (camera_joints target_joints : list R)
    (m : nat -> nat -> S) : res (giso S) :=
    let offsets b c i j := m b (j * dof c + i)%nat in
    let camera_mount_to_camera := gcreateTransform (gread m 2 0) (gread m 3 0) in
    let target_mount_to_target := gcreateTransform (gread m 4 0) (gread m 5 0) in
    let camera_base_to_target_base := gcreateTransform (gread m 6 0) (gread m 7 0) in
    do camera_chain_fk <- ggetFK camera_chain camera_joints (offsets 0%nat camera_chain);
    let camera_base_to_camera := giso_mul camera_chain_fk camera_mount_to_camera in
    do target_chain_fk <- ggetFK target_chain target_joints (offsets 1%nat target_chain);
    let camera_base_to_target := giso_mul (giso_mul camera_base_to_target_base target_chain_fk) target_mount_to_target in
    Ok (giso_mul (giso_inv camera_base_to_camera) camera_base_to_target).
  (** kc.h:268-339 *)
  Definition gdualCost2D3D (obs : vec2) (point_in_target : vec3) (intr : intrinsics) (camera_chain target_chain : dh_chain)
    (camera_joints target_joints : list R) (m : nat -> nat -> S) : res (list S) :=
    do camera_to_target <- gcamera_to_target camera_chain target_chain camera_joints target_joints m;
    let target_in_camera := giso_app camera_to_target (gcast point_in_target) in
    let target_in_image := gprojectPoint_eig intr target_in_camera in
    Ok [g2x target_in_image -! #(px obs); g2y target_in_image -! #(py obs)].
  (** Eigen: Quaternion(Matrix3) *)
  Definition gquat_of_mat (m : gmat S) : gquat S :=
    let t := g00 m +! g11 m +! g22 m in
    if gt N t #0 then
      let t := nsqrt N (t +! #1) in
      let w := #(/ 2) *! t in
      let t := #(/ 2) /! t in
      GQ w ((g21 m -! g12 m) *! t) ((g02 m -! g20 m) *! t) ((g10 m -! g01 m) *! t)
    else
      let zbranch :=
        let t := nsqrt N (g22 m -! g00 m -! g11 m +! #1) in
        let z := #(/ 2) *! t in let t := #(/ 2) /! t in
        GQ ((g10 m -! g01 m) *! t) ((g02 m +! g20 m) *! t) ((g12 m +! g21 m) *! t) z in
      if gt N (g11 m) (g00 m) then
        if gt N (g22 m) (g11 m) then zbranch
        else
          let t := nsqrt N (g11 m -! g22 m -! g00 m +! #1) in
          let y := #(/ 2) *! t in let t := #(/ 2) /! t in
          GQ ((g02 m -! g20 m) *! t) ((g01 m +! g10 m) *! t) y ((g21 m +! g12 m) *! t)
      else
        if gt N (g22 m) (g00 m) then zbranch
        else
          let t := nsqrt N (g00 m -! g11 m -! g22 m +! #1) in
          let x := #(/ 2) *! t in let t := #(/ 2) /! t in
          GQ ((g21 m -! g12 m) *! t) x ((g10 m +! g01 m) *! t) ((g20 m +! g02 m) *! t).
  (** Eigen: Quaternion::angularDistance *)
  Definition gangular_distance (a b : gquat S) : S :=
    let d := gqmul a (GQ (gw b) (opp N (gi b)) (opp N (gj b)) (opp N (gk b))) in
    #2 *! natan2 N (gnorm (G3 (gi d) (gj d) (gk d))) (nabs N (gw d)).
  (** kc.h:341-411 *)
  Definition gdualCostPose6D (measurement : kin_measurement) (camera_chain target_chain : dh_chain) (orientation_weight : R)
    (m : nat -> nat -> S) : res (list S) :=
    do camera_to_target <- gcamera_to_target camera_chain target_chain (km_camera_chain_joints measurement)
                             (km_target_chain_joints measurement) m;
    let measured := gcastI (km_camera_to_target measurement) in
    let tform_error := giso_mul measured (giso_inv camera_to_target) in
    let rot_diff := gangular_distance (gquat_of_mat (glin measured)) (gquat_of_mat (glin camera_to_target)) in
    Ok [gx (gtr tform_error); gy (gtr tform_error); gz (gtr tform_error);
        if is_nan N rot_diff then #0 else #orientation_weight *! rot_diff].
End Templates.
