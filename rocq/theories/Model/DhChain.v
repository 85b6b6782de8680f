(** DH chains: rct_optimizations/include/rct_optimizations/dh_chain.h and
    rct_optimizations/src/rct_optimizations/dh_chain.cpp *)
From Coq Require Import Reals ZArith String List.
From Verif.Base Require Import Geom Outcome Matrix.
Import ListNotations.
Local Open Scope R_scope.

(** Eigen::Vector4d *)
Record vec4 := V4 { e0 : R; e1 : R; e2 : R; e3 : R }.
Definition add4 (a b : vec4) : vec4 := V4 (e0 a + e0 b) (e1 a + e1 b) (e2 a + e2 b) (e3 a + e3 b).
Definition coef4 (a : vec4) (j : nat) : R :=
  match j with 0 => e0 a | 1 => e1 a | 2 => e2 a | _ => e3 a end%nat.

(** dh_chain.h:23-27, DHJointType; [OTHER] stands for any other value of the underlying
    unsigned (a cast, or an uninitialised DHTransform). *)
Inductive joint_type := LINEAR | REVOLUTE | OTHER.

(** dh_chain.h:52-133, the members of DHTransform *)
Record dh_transform := DHT {
  params : vec4;
  jtype : joint_type;
  jmax : R;
  jmin : R;
  jname : string;
  random_seed : nat }.

(** dh_chain.cpp:18-24, with the default member initialisers dh_chain.h:122, 124 *)
Definition mk_dh_transform (params_ : vec4) (type_ : joint_type) (name_ : string) (seed : nat) : dh_transform :=
  DHT params_ type_ PI (- PI) name_ seed.
(** dh_chain.cpp:8-11, name "joint"; the seed comes from std::random_device *)
Definition mk_dh_transform_unnamed (params_ : vec4) (type_ : joint_type) (seed : nat) : dh_transform :=
  mk_dh_transform params_ type_ "joint" seed.

(** dh_chain.h:64-93, createRelativeTransform(joint_value, offsets) *)
Definition createRelativeTransform (t : dh_transform) (joint_value : R) (offsets : vec4) : res iso :=
  let transform := iso_id in
  let updated_params := add4 (params t) offsets in
  do updated_params <-
    match jtype t with
    | LINEAR => Ok (V4 (e0 updated_params + joint_value) (e1 updated_params) (e2 updated_params) (e3 updated_params))
    | REVOLUTE => Ok (V4 (e0 updated_params) (e1 updated_params + joint_value) (e2 updated_params) (e3 updated_params))
    | OTHER => Throw RuntimeError
    end;
  let transform := iso_mul transform (iso_trans (V3 0 0 (e0 updated_params))) in
  let transform := iso_mul transform (iso_rot (aa_matrix (e1 updated_params) unitZ)) in
  let transform := iso_mul transform (iso_trans (V3 (e2 updated_params) 0 0)) in
  let transform := iso_mul transform (iso_rot (aa_matrix (e3 updated_params) unitX)) in
  Ok transform.

(** dh_chain.h:101-106, createRelativeTransform(joint_value) *)
Definition createRelativeTransform0 (t : dh_transform) (joint_value : R) : res iso :=
  createRelativeTransform t joint_value (V4 0 0 0 0).

(** dh_chain.cpp:26-35, createRandomJointValue. [G] is the state of std::mt19937,
    [seeded] its constructor and [uniform a b g] a draw from
    std::uniform_real_distribution(a, b). The generator is a function-level static: it is
    absent until the first call in the process, and then shared by all joints.
    std::uniform_real_distribution requires a <= b. *)
Definition createRandomJointValue {G} (seeded : nat -> G) (uniform : R -> R -> G -> R * G)
  (t : dh_transform) (static : option G) : res (R * option G) :=
  let mt_rand := match static with Some g => g | None => seeded (random_seed t) end in
  if Rle_dec (jmin t) (jmax t)
  then let '(v, g) := uniform (jmin t) (jmax t) mt_rand in Ok (v, Some g)
  else UB.

(** dh_chain.cpp:37-45, DHTransform::getParamLabels *)
Definition getParamLabels (t : dh_transform) : list string :=
  [String.append (jname t) "_d"; String.append (jname t) "_theta";
   String.append (jname t) "_r"; String.append (jname t) "_alpha"].

(** dh_chain.h:138-250, DHChain; constructor dh_chain.cpp:49-52 *)
Record dh_chain := DHChain { transforms : list dh_transform; base_offset : iso }.

(** dh_chain.cpp:76 *)
Definition dof (c : dh_chain) : nat := length (transforms c).

(** Eigen: m.row(i) of an N x 4 matrix; out of range fails an eigen_assert *)
Definition row4 (m : matrix) (i : nat) : res vec4 :=
  if Nat.ltb i (rows m)
  then Ok (V4 (ent m i 0) (ent m i 1) (ent m i 2) (ent m i 3))
  else UB.

(** dh_chain.cpp:54-64, DHChain(other, dh_offsets). [seeds i] is what std::random_device
    gives for link i. *)
Definition bake_offsets (seeds : nat -> nat) (other : dh_chain) (dh_offsets : matrix) : res dh_chain :=
  do ts <- foldM (fun transforms_ i =>
      do transform <- at_ (transforms other) i;
      do row <- row4 dh_offsets i;
      Ok (transforms_ ++ [mk_dh_transform_unnamed (add4 (params transform) row) (jtype transform) (seeds i)]))
    (seq 0 (length (transforms other))) [];
  Ok (DHChain ts (base_offset other)).

(** dh_chain.h:168-193, getFK(joint_values, offsets) *)
Definition getFK (c : dh_chain) (joint_values : list R) (offsets : matrix) : res iso :=
  if Nat.ltb (dof c) (length joint_values) then Throw RuntimeError
  else if Nat.ltb (rows offsets) (length joint_values) then Throw RuntimeError
  else
    foldM (fun transform i =>
      do offset <- row4 offsets i;
      do t <- at_ (transforms c) i;
      do q <- idx joint_values i;
      do link <- createRelativeTransform t q offset;
      Ok (iso_mul transform link))
    (seq 0 (length joint_values)) (base_offset c).

(** dh_chain.h:152-157, getFK(joint_values) *)
Definition getFK0 (c : dh_chain) (joint_values : list R) : res iso :=
  getFK c joint_values (Mat (dof c) 4 (fun _ _ => 0)).

(** dh_chain.cpp:66-74, createUniformlyRandomPose *)
Definition createUniformlyRandomPose {G} (seeded : nat -> G) (uniform : R -> R -> G -> R * G)
  (c : dh_chain) (static : option G) : res (list R * option G) :=
  foldM (fun '(joints, st) t =>
      do (v, st') <- createRandomJointValue seeded uniform t st;
      Ok (joints ++ [v], st'))
    (transforms c) ([], static).

(** dh_chain.cpp:78-86, getDHTable; [u] are the uninitialised entries of [out] *)
Definition getDHTable (u : nat -> nat -> R) (c : dh_chain) : matrix :=
  let out := Mat (dof c) 4 u in
  fold_left (fun out i =>
      match nth_error (transforms c) i with
      | Some t => fold_left (fun out j => set_ent out i j (coef4 (params t) j)) (seq 0 4) out
      | None => out   (* not reached: i < size *)
      end)
    (seq 0 (length (transforms c))) out.

(** dh_chain.cpp:88-97, getJointTypes *)
Definition getJointTypes (c : dh_chain) : list joint_type :=
  fold_left (fun out t => out ++ [jtype t]) (transforms c) [].

(** dh_chain.cpp:99-107, DHChain::getParamLabels *)
Definition chainParamLabels (c : dh_chain) : list (list string) :=
  fold_left (fun out t => out ++ [getParamLabels t]) (transforms c) [].

(** dh_chain.cpp:111-117, getRelativeTransform *)
Definition getRelativeTransform (c : dh_chain) (joint_index : Z) (value : R) : res iso :=
  if (joint_index <? 0)%Z then Throw RuntimeError
  else if (Z.of_nat (length (transforms c)) <=? joint_index)%Z then Throw RuntimeError
  else
    do t <- idx (transforms c) (Z.to_nat joint_index);
    createRelativeTransform0 t value.
