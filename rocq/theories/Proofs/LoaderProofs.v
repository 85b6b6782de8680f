(** The parameter loaders. *)
From Coq Require Import Reals Lra ZArith String List Bool Arith.
From Verif.Base Require Import Geom Outcome.
From Verif.Model Require Import Pose Yaml Serialization Loaders.
From Verif.Spec Require Import YamlSpec LoaderSpec.
From Verif.Proofs Require Import GeomLemmas RotLemmas AngleAxisLemmas YamlProofs.
Import ListNotations.
Local Open Scope R_scope.

(** ** Reading *)

Lemma find_str_iff {V} key (m : list (string * V)) x : find_str key m = Some x <-> exists m1 m2, m = m1 ++ (key, x) :: m2 /\ ~ In key (map fst m1).
Proof.
  split.
  - induction m as [ | [k v] r IH]; cbn; [ discriminate | ]. destruct (String.eqb_spec key k) as [-> | N].
    + intros E. injection E as ->. exists [], r. auto.
    + intros E. destruct (IH E) as (m1 & m2 & -> & F). exists ((k, v) :: m1), m2. split; [ reflexivity | ]. cbn. intros [-> | H]; [ apply N; reflexivity | contradiction ].
  - intros (m1 & m2 & -> & F). induction m1 as [ | [k v] r IH]; cbn.
    + rewrite String.eqb_refl. reflexivity.
    + cbn in F. destruct (String.eqb_spec key k) as [-> | N]; [ exfalso; apply F; left; reflexivity | apply IH; intros H; apply F; right; exact H ].
Qed.
Lemma read_iff v key r : read_or_throw v key = Ok r <-> double_at key v r.
Proof.
  unfold read_or_throw, read, double_at, member. split.
  - destruct v as [ | | | | | | | m]; try discriminate. destruct (find_str key m) as [x | ] eqn:F; [ | discriminate ]. apply find_str_iff in F. destruct F as (m1 & m2 & -> & N).
    destruct x; cbn; try discriminate; intros E; injection E as <-; [ right | left ]; eauto 10.
  - intros [(m1 & m2 & -> & N) | ((m1 & m2 & -> & N) & ->)]; (rewrite (proj2 (find_str_iff key _ _)) by eauto); reflexivity.
Qed.
Lemma read_else v key : (exists r, double_at key v r) \/ read_or_throw v key = Throw InvalidParameter.
Proof.
  destruct (read_or_throw v key) eqn:E; [ left; exists a; apply read_iff, E | | ]; unfold read_or_throw in *; destruct (read v key); try discriminate; auto.
Qed.
(** Either a value or an invalid parameter. *)
Definition ip {A} (x : res A) : Prop := (exists a, x = Ok a) \/ x = Throw InvalidParameter.
Lemma ip_bind {A B} (x : res A) (f : A -> res B) : ip x -> (forall a, ip (f a)) -> ip (bind x f).
Proof. intros [[a ->] | ->] H; [ apply H | right; reflexivity ]. Qed.
Lemma ip_read v key : ip (read_or_throw v key).
Proof. unfold read_or_throw. destruct (read v key); [ left; eauto | right; reflexivity ]. Qed.
Lemma ip_param server key : ip (param server key).
Proof. unfold param. destruct (server key); [ left; eauto | right; reflexivity ]. Qed.
Lemma ip_intr server key : ip (loadIntrinsics_param server key).
Proof. unfold loadIntrinsics_param. apply ip_bind; [ apply ip_param | intros v ]. repeat (apply ip_bind; [ apply ip_read | intros ? ]). left. eauto. Qed.
Lemma ip_pose server key : ip (loadPose_param server key).
Proof. unfold loadPose_param. apply ip_bind; [ apply ip_param | intros v ]. repeat (apply ip_bind; [ apply ip_read | intros ? ]). left. eauto. Qed.

Lemma intr_param_iff server key k : loadIntrinsics_param server key = Ok k <-> exists v, server key = Some v /\ param_intr v k.
Proof.
  unfold loadIntrinsics_param, param, param_intr. split.
  - destruct (server key) as [v | ]; [ | discriminate ]. cbn [bind]. intros H. exists v. split; [ reflexivity | ].
    do 4 (apply bind_ok in H; let R := fresh "R" in destruct H as (? & R & H); apply read_iff in R). injection H as <-. cbn. auto.
  - intros (v & -> & A & B & C & D). cbn [bind]. apply read_iff in A, B, C, D. rewrite A. cbn [bind]. rewrite B. cbn [bind]. rewrite C. cbn [bind]. rewrite D. cbn [bind]. destruct k. reflexivity.
Qed.
Definition aa_mat (q : quat) : mat3 := aa_matrix (aa_angle (aa_of_quat q)) (aa_axis (aa_of_quat q)).
Lemma pose_param_iff server key T : loadPose_param server key = Ok T <-> exists v q, server key = Some v /\ param_pose v (tr T) q /\ lin T = aa_mat q.
Proof.
  unfold loadPose_param, param, param_pose. split.
  - destruct (server key) as [v | ]; [ | discriminate ]. cbn [bind]. intros H.
    do 7 (apply bind_ok in H; let R := fresh "R" in destruct H as (? & R & H); apply read_iff in R). injection H as <-. exists v. eexists (Q _ _ _ _). cbn [tr lin vx vy vz qw qx qy qz]. split; [ reflexivity | ]. split; [ | reflexivity ]. repeat split; eassumption.
  - intros (v & [w x y z] & -> & (X & Y & Z & W & I & J & K) & L). cbn [bind qw qx qy qz] in *. apply read_iff in X, Y, Z, W, I, J, K.
    rewrite X. cbn [bind]. rewrite Y. cbn [bind]. rewrite Z. cbn [bind]. rewrite I. cbn [bind]. rewrite J. cbn [bind]. rewrite K. cbn [bind]. rewrite W. cbn [bind]. destruct T as [m [a b c]]. cbn [lin tr vx vy vz] in *. subst m. reflexivity.
Qed.

(** ** Normalisation *)

Lemma qnorm2_pos q : q <> zero_quat -> 0 < qnorm2 q.
Proof.
  intros N. destruct q as [w x y z]. unfold qnorm2. cbn.
  destruct (Req_EM_T w 0) as [-> | ]; [ | nra ]. destruct (Req_EM_T x 0) as [-> | ]; [ | nra ]. destruct (Req_EM_T y 0) as [-> | ]; [ | nra ]. destruct (Req_EM_T z 0) as [-> | ]; [ | nra ].
  exfalso. apply N. reflexivity.
Qed.
Lemma unit_quat_unit q : q <> zero_quat -> qnorm2 (unit_quat q) = 1.
Proof.
  intros N. apply qnorm2_pos in N. unfold unit_quat. set (s := sqrt (qnorm2 q)). assert (S : s * s = qnorm2 q) by (apply sqrt_sqrt; lra).
  assert (P : 0 < s) by (apply sqrt_lt_R0, N). unfold qnorm2 in *. cbn. rewrite <- (Rinv_r (s * s)) by nra. rewrite S at 1. field. lra.
Qed.
Lemma norm_scale k v : 0 <= k -> norm (vscale k v) = k * norm v.
Proof. intros K. unfold norm. rewrite <- (sqrt_square k) at 3 by exact K. rewrite <- sqrt_mult by (unfold dot; nra). f_equal. unfold dot, vscale. cbn. ring. Qed.
Lemma atan2_scale k y x : 0 < k -> atan2 (k * y) (k * x) = atan2 y x.
Proof.
  intros K. unfold atan2. 
  repeat match goal with |- context [Rlt_dec ?a ?b] => destruct (Rlt_dec a b) end;
  repeat match goal with |- context [Rle_dec ?a ?b] => destruct (Rle_dec a b) end;
  try (exfalso; nra); try reflexivity; replace (k * y / (k * x)) with (y / x) by (field; nra); reflexivity.
Qed.
Lemma aa_of_unit q : q <> zero_quat -> aa_of_quat (unit_quat q) = aa_of_quat q.
Proof.
  intros N. apply qnorm2_pos in N. unfold unit_quat. set (s := sqrt (qnorm2 q)). assert (P : 0 < s) by (apply sqrt_lt_R0, N). clearbody s.
  assert (V : qvec (Q (qw q / s) (qx q / s) (qy q / s) (qz q / s)) = vscale (/ s) (qvec q)) by (unfold qvec, vscale; cbn; f_equal; unfold Rdiv; ring).
  assert (Ps : 0 < / s) by (apply Rinv_0_lt_compat, P).
  unfold aa_of_quat. rewrite V, norm_scale by lra. cbn [qw qx qy qz].
  destruct (Req_EM_T (norm (qvec q)) 0) as [Z | Z].
  - rewrite Z. destruct (Req_EM_T (/ s * 0) 0) as [_ | F]; [ reflexivity | exfalso; apply F; ring ].
  - destruct (Req_EM_T (/ s * norm (qvec q)) 0) as [F | _]; [ exfalso; apply Rmult_integral in F; lra | ].
    replace (Rabs (qw q / s)) with (/ s * Rabs (qw q)) by (unfold Rdiv; rewrite Rabs_mult, (Rabs_right (/ s)) by lra; ring). rewrite atan2_scale by exact Ps.
    f_equal. destruct (Rlt_dec (qw q) 0) as [L | L]; destruct (Rlt_dec (qw q / s) 0) as [L' | L']; try (exfalso; unfold Rdiv in *; nra); f_equal; field; lra.
Qed.
Lemma aa_mat_unit q : q <> zero_quat -> aa_mat q = q_matrix (unit_quat q).
Proof. intros N. unfold aa_mat. rewrite <- aa_of_unit by exact N. apply aa_of_quat_spec, unit_quat_unit, N. Qed.
Lemma aa_mat_flat q : qvec q = vzero -> aa_mat q = I3.
Proof.
  intros V. unfold aa_mat, aa_of_quat. rewrite V. assert (Z : norm vzero = 0) by (unfold norm, dot; cbn; replace (0 * 0 + 0 * 0 + 0 * 0) with 0 by ring; apply sqrt_0). rewrite Z. destruct (Req_EM_T 0 0); [ | lra ].
  cbn. unfold aa_matrix. cbn. rewrite cos_0, sin_0. unfold I3. f_equal; ring.
Qed.
Lemma q_matrix_flat q : qvec q = vzero -> q_matrix q = I3.
Proof. destruct q as [w x y z]. unfold qvec, vzero. cbn. intros E. injection E as -> -> ->. unfold q_matrix, I3. cbn. f_equal; ring. Qed.
(** The two conversions agree exactly for quaternions of length one, and for those without a vector part. *)
Lemma conversions_agree q : aa_mat q = q_matrix q <-> qnorm2 q = 1 \/ qvec q = vzero.
Proof.
  split.
  - intros E. destruct (Req_EM_T (qx q) 0) as [X | X]; [ destruct (Req_EM_T (qy q) 0) as [Y | Y]; [ destruct (Req_EM_T (qz q) 0) as [Z | Z] | ] | ];
      [ right; unfold qvec, vzero; rewrite X, Y, Z; reflexivity | left .. ];
      (assert (N : q <> zero_quat) by (intros ->; cbn in *; congruence)); rewrite aa_mat_unit in E by exact N; pose proof (qnorm2_pos q N) as P;
      unfold unit_quat in E; set (s := sqrt (qnorm2 q)) in *; (assert (S : s * s = qnorm2 q) by (apply sqrt_sqrt; lra)); (assert (Ps : 0 < s) by (apply sqrt_lt_R0, P));
      assert (T := f_equal trace E); unfold trace, q_matrix in T; cbn in T;
      (assert (U : (qx q * qx q + qy q * qy q + qz q * qz q) * (1 - / (s * s)) = 0) by (rewrite Rinv_mult by lra; unfold Rdiv in T; nra));
      apply Rmult_integral in U; (destruct U as [U | U]; [ exfalso; nra | ]);
      rewrite <- S; apply (Rmult_eq_reg_r (/ (s * s))); [ rewrite Rinv_r by nra; lra | apply Rinv_neq_0_compat; nra | rewrite Rinv_r by nra; lra | apply Rinv_neq_0_compat; nra | rewrite Rinv_r by nra; lra | apply Rinv_neq_0_compat; nra ] || idtac.
  - intros [U | V]; [ apply aa_of_quat_spec, U | rewrite aa_mat_flat, q_matrix_flat by exact V; reflexivity ].
Qed.

(** ** The overloads that return false *)

Lemma or_false_param_spec {A} (x : res A) out : ip x -> exists b a, or_false_param x out = Ok (b, a) /\ (b = true <-> x = Ok a) /\ (b = false -> a = out).
Proof.
  intros [[a ->] | ->]; cbn; [ exists true, a | exists false, out ]; (split; [ reflexivity | split; [ split; congruence | congruence ] ]).
Qed.
Definition bf {A} (x : res A) : Prop := (exists a, x = Ok a) \/ x = Throw BadFile.
Lemma bf_file {A} (load : string -> option yaml) path (d : decoder A) : (forall n, yaml_only (d n)) -> bf (bad_file (do n <- LoadFile load path; as_ d n)).
Proof.
  intros H. unfold LoadFile. destruct (load path) as [n | ]; [ | right; reflexivity ]. cbn [bind]. unfold as_.
  destruct (H n) as [[[a | ] ->] | ->]; cbn; [ left; eauto | right; reflexivity | right; reflexivity ].
Qed.
Lemma or_false_file_spec {A} (x : res A) out : bf x -> exists b a, or_false_file x out = Ok (b, a) /\ (b = true <-> x = Ok a) /\ (b = false -> a = out).
Proof.
  intros [[a ->] | ->]; cbn; [ exists true, a | exists false, out ]; (split; [ reflexivity | split; [ split; congruence | congruence ] ]).
Qed.
Lemma file_iff {A} (load : string -> option yaml) path (d : decoder A) (P : yaml -> A -> Prop) a : (forall n b, as_ d n = Ok b <-> P n b) ->
  bad_file (do n <- LoadFile load path; as_ d n) = Ok a <-> exists n, load path = Some n /\ P n a.
Proof.
  intros H. unfold LoadFile. destruct (load path) as [n | ]; cbn [bind].
  - split.
    + intros E. exists n. split; [ reflexivity | ]. apply H. destruct (as_ d n) as [b | [] | ]; cbn in E; congruence.
    + intros (n' & E & Q). injection E as <-. apply H in Q. rewrite Q. reflexivity.
  - split; [ discriminate | intros (n & E & _); discriminate ].
Qed.
Lemma intr_file_iff load path k : loadIntrinsics_file load path = Ok k <-> exists n, load path = Some n /\ says_intr n k.
Proof. apply file_iff, intr_reads. Qed.
Lemma pose_file_iff load path T : loadPose_file load path = Ok T <-> exists n, load path = Some n /\ exists q, says_pose n (tr T) q /\ lin T = q_matrix q.
Proof. apply (file_iff _ _ _ (fun n T => exists q, says_pose n (tr T) q /\ lin T = q_matrix q)). exact iso_reads. Qed.

Lemma try_intr_param server key out : exists b k, tryIntrinsics_param server key out = Ok (b, k) /\
  (b = true <-> exists v, server key = Some v /\ param_intr v k) /\ (b = false -> k = out).
Proof.
  destruct (or_false_param_spec _ out (ip_intr server key)) as (b & k & E & I & F). exists b, k. split; [ exact E | ]. split; [ | exact F ]. rewrite I. apply intr_param_iff.
Qed.
Lemma try_pose_param server key out : exists b T, tryPose_param server key out = Ok (b, T) /\
  (b = true <-> exists v q, server key = Some v /\ param_pose v (tr T) q /\ lin T = aa_mat q) /\ (b = false -> T = out).
Proof.
  destruct (or_false_param_spec _ out (ip_pose server key)) as (b & k & E & I & F). exists b, k. split; [ exact E | ]. split; [ | exact F ]. rewrite I. apply pose_param_iff.
Qed.
Lemma try_intr_file load path out : exists b k, tryIntrinsics_file load path out = Ok (b, k) /\
  (b = true <-> exists n, load path = Some n /\ says_intr n k) /\ (b = false -> k = out).
Proof.
  destruct (or_false_file_spec (loadIntrinsics_file load path) out) as (b & k & E & I & F); [ apply bf_file, yo_intr | ]. exists b, k. split; [ exact E | ]. split; [ | exact F ]. rewrite I. apply intr_file_iff.
Qed.
Lemma try_pose_file load path out : exists b T, tryPose_file load path out = Ok (b, T) /\
  (b = true <-> exists n, load path = Some n /\ exists q, says_pose n (tr T) q /\ lin T = q_matrix q) /\ (b = false -> T = out).
Proof.
  destruct (or_false_file_spec (loadPose_file load path) out) as (b & k & E & I & F); [ apply bf_file, yo_iso | ]. exists b, k. split; [ exact E | ]. split; [ | exact F ]. rewrite I. apply pose_file_iff.
Qed.

(** Whatever the old content, the loaders succeed on the same inputs. *)
Lemma intr_param_success server key out : (exists k, tryIntrinsics_param server key out = Ok (true, k)) <-> exists v k, server key = Some v /\ param_intr v k.
Proof.
  unfold tryIntrinsics_param. split.
  - intros (k & E). destruct (try_intr_param server key out) as (b & k' & E' & I & _). unfold tryIntrinsics_param in E'. rewrite E' in E. injection E as -> ->. destruct (proj1 I eq_refl) as (v & H). eauto.
  - intros (v & k & H). assert (L : loadIntrinsics_param server key = Ok k) by (apply intr_param_iff; eauto). exists k. rewrite L. reflexivity.
Qed.
Lemma pose_param_success server key out : (exists T, tryPose_param server key out = Ok (true, T)) <-> exists v t q, server key = Some v /\ param_pose v t q.
Proof.
  split.
  - intros (T & E). destruct (try_pose_param server key out) as (b & T' & E' & I & _). rewrite E' in E. injection E as -> ->. destruct (proj1 I eq_refl) as (v & q & H & P & _). eauto.
  - intros (v & t & q & H & P). assert (L : loadPose_param server key = Ok (Iso (aa_mat q) t)) by (apply pose_param_iff; eauto). exists (Iso (aa_mat q) t). unfold tryPose_param. rewrite L. reflexivity.
Qed.
Lemma intr_file_success load path out : (exists k, tryIntrinsics_file load path out = Ok (true, k)) <-> exists n k, load path = Some n /\ says_intr n k.
Proof.
  split.
  - intros (k & E). destruct (try_intr_file load path out) as (b & k' & E' & I & _). rewrite E' in E. injection E as -> ->. destruct (proj1 I eq_refl) as (v & H). eauto.
  - intros (v & k & H). assert (L : loadIntrinsics_file load path = Ok k) by (apply intr_file_iff; eauto). exists k. unfold tryIntrinsics_file. rewrite L. reflexivity.
Qed.
Lemma pose_file_success load path out : (exists T, tryPose_file load path out = Ok (true, T)) <-> exists n t q, load path = Some n /\ says_pose n t q.
Proof.
  split.
  - intros (T & E). destruct (try_pose_file load path out) as (b & T' & E' & I & _). rewrite E' in E. injection E as -> ->. destruct (proj1 I eq_refl) as (n & H & q & P & _). eauto.
  - intros (n & t & q & H & P). assert (L : loadPose_file load path = Ok (Iso (q_matrix q) t)). { apply pose_file_iff. exists n. split; [ exact H | ]. exists q. auto. } exists (Iso (q_matrix q) t). unfold tryPose_file. rewrite L. reflexivity.
Qed.

(** ** The two pose loaders *)

Lemma quat_eq_dec (p q : quat) : p = q \/ p <> q.
Proof.
  destruct p as [a b c d], q as [e f g h]. destruct (Req_EM_T a e) as [-> | N]; [ | right; congruence ]. destruct (Req_EM_T b f) as [-> | N]; [ | right; congruence ].
  destruct (Req_EM_T c g) as [-> | N]; [ | right; congruence ]. destruct (Req_EM_T d h) as [-> | N]; [ left; reflexivity | right; congruence ].
Qed.
Lemma rotation_iff q m : m = aa_mat q <-> rotation_of q m.
Proof.
  unfold rotation_of. destruct (quat_eq_dec q zero_quat) as [-> | N].
  - rewrite aa_mat_flat by reflexivity. intuition.
  - rewrite aa_mat_unit by exact N. intuition.
Qed.
Lemma try_pose_param_rotation server key out : exists b T, tryPose_param server key out = Ok (b, T) /\
  (b = true <-> exists v q, server key = Some v /\ param_pose v (tr T) q /\ rotation_of q (lin T)) /\ (b = false -> T = out).
Proof.
  destruct (try_pose_param server key out) as (b & T & E & I & F). exists b, T. split; [ exact E | ]. split; [ | exact F ]. rewrite I. split; intros (v & q & A & B & C); exists v, q; (split; [ exact A | split; [ exact B | apply rotation_iff; exact C ] ]).
Qed.

Lemma both_loaders server key load path v n t q : server key = Some v -> param_pose v t q -> load path = Some n -> says_pose n t q ->
  (q <> zero_quat -> loadPose_param server key = Ok (Iso (q_matrix (unit_quat q)) t)) /\
  loadPose_file load path = Ok (Iso (q_matrix q) t) /\
  (loadPose_param server key = loadPose_file load path <-> qnorm2 q = 1 \/ qvec q = vzero).
Proof.
  intros S P L Y.
  assert (A : loadPose_param server key = Ok (Iso (aa_mat q) t)) by (apply pose_param_iff; eauto).
  assert (B : loadPose_file load path = Ok (Iso (q_matrix q) t)). { apply pose_file_iff. exists n. split; [ exact L | ]. exists q. auto. }
  split; [ | split ].
  - intros N. rewrite A, aa_mat_unit by exact N. reflexivity.
  - exact B.
  - rewrite A, B, <- conversions_agree. split; [ intros E; apply (f_equal (fun r => match r with Ok T => lin T | _ => I3 end)) in E; exact E | intros ->; reflexivity ].
Qed.
(** A quaternion of length two. *)
Definition long_params : xml :=
  XStruct [("x", XDouble 0); ("y", XDouble 0); ("z", XDouble 0); ("qx", XDouble 2); ("qy", XDouble 0); ("qz", XDouble 0); ("qw", XDouble 0)]%string.
Definition long_yaml : yaml :=
  YMap [("x", YReal 0); ("y", YReal 0); ("z", YReal 0); ("qx", YReal 2); ("qy", YReal 0); ("qz", YReal 0); ("qw", YReal 0)]%string.
Ltac member_here m1 m2 := exists m1, m2; split; [ reflexivity | cbn; intuition discriminate ].
Lemma find_double key m r : find_str key m = Some (XDouble r) -> double_at key (XStruct m) r.
Proof. intros E. apply find_str_iff in E. destruct E as (m1 & m2 & -> & N). left. exists m1, m2. auto. Qed.
Lemma find_number key m r : find_str key m = Some (YReal r) -> number_at key (YMap m) r.
Proof. intros E. apply find_str_iff in E. destruct E as (m1 & m2 & -> & N). exists (YReal r). split; [ exists m1, m2; auto | left; reflexivity ]. Qed.
Lemma long_says : param_pose long_params vzero (Q 0 2 0 0) /\ says_pose long_yaml vzero (Q 0 2 0 0).
Proof.
  split.
  - unfold param_pose, long_params. cbn [vx vy vz vzero qw qx qy qz]. repeat split; apply find_double; reflexivity.
  - unfold says_pose, says_vec3, long_yaml. cbn [vx vy vz vzero qw qx qy qz]. repeat split; apply find_number; reflexivity.
Qed.
Lemma loaders_differ : ~ (forall server key load path v n t q, server key = Some v -> param_pose v t q -> load path = Some n -> says_pose n t q ->
  loadPose_param server key = loadPose_file load path).
Proof.
  intros H. destruct long_says as [P Y].
  specialize (H (fun _ => Some long_params) ""%string (fun _ => Some long_yaml) ""%string _ _ _ _ eq_refl P eq_refl Y).
  apply (both_loaders _ _ _ _ _ _ _ _ eq_refl P eq_refl Y) in H. destruct H as [H | H].
  - unfold qnorm2 in H. cbn in H. lra.
  - apply (f_equal vx) in H. cbn in H. lra.
Qed.
(** A whole number is refused as a parameter and accepted in a file. *)
Lemma integers server key load path v n k z m1 m2 : server key = Some v -> member "fx" v (XInt z) -> load path = Some n -> says_intr n k -> n = YMap (m1 ++ ("fx"%string, YInt z) :: m2) -> ~ In "fx"%string (map fst m1) ->
  loadIntrinsics_param server key = Throw InvalidParameter /\ loadIntrinsics_file load path = Ok k /\ fx k = IZR z.
Proof.
  intros S M L Y -> N. split; [ | split ].
  - destruct (ip_intr server key) as [[k' E] | E]; [ | exact E ]. apply intr_param_iff in E. destruct E as (v' & E & F & _). rewrite S in E. injection E as <-.
    exfalso. apply read_iff in F. unfold read_or_throw, read in F. destruct M as (a & b & -> & Na). rewrite (proj2 (find_str_iff "fx" _ (XInt z))) in F by eauto. discriminate.
  - apply intr_file_iff. eauto.
  - destruct Y as (_ & F & _). destruct F as (w & (a & b & E & Na) & Nw). injection E as E.
    assert (W : find_str "fx" (a ++ ("fx"%string, w) :: b) = Some w) by (apply find_str_iff; eauto). rewrite <- E, (proj2 (find_str_iff "fx" _ (YInt z))) in W by eauto. injection W as <-.
    destruct Nw as [Nw | (z' & Nw & ->)]; [ discriminate | injection Nw as <-; reflexivity ].
Qed.

(** ** Conversion to YAML *)

Section XmlInd.
  Variable P : xml -> Prop.
  Hypothesis Hstruct : forall m, Forall (fun p => P (snd p)) m -> P (XStruct m).
  Hypothesis Hother : forall v, (forall m, v <> XStruct m) -> P v.
  Fixpoint xml_ind' (v : xml) : P v.
  Proof.
    destruct v as [ | | | | | | l | m]; try (apply Hother; intros; discriminate).
    apply Hstruct. induction m as [ | [k x] r IH]; constructor; [ cbn; apply xml_ind' | exact IH ].
  Defined.
End XmlInd.
Definition entry (x : xml) : res yaml :=
  match x with
  | XStruct _ => toYAML x
  | XArray _ => do t <- getArrayType x; if is_scalar_type t then Ok (fromArray x) else Throw RuntimeError
  | XBool _ | XInt _ | XDouble _ | XString _ => Ok (scalar x)
  | _ => Throw RuntimeError
  end.
Lemma toYAML_struct m : toYAML (XStruct m) = do es <- mapM (fun p => do y <- entry (snd p); Ok (fst p, y)) m; Ok (match es with [] => YNull | _ => YMap es end).
Proof.
  cbn [toYAML]. f_equal. induction m as [ | [k x] r IH]; [ reflexivity | ]. cbn [mapM fst snd]. rewrite IH. 
  destruct x; cbn [entry bind]; try reflexivity.
  - destruct (getArrayType (XArray l)); cbn [bind]; try reflexivity. destruct (is_scalar_type a); reflexivity.
  - destruct (toYAML (XStruct m)); reflexivity.
Qed.
Lemma same_type_iff a b : same_type a b = true <-> a = b.
Proof. destruct a, b; cbn; try (split; congruence); try (split; [ discriminate | congruence ]). rewrite Nat.eqb_eq. split; congruence. Qed.
Lemma scalar_iff x y : is_scalar_type (getType x) = true -> (scalar x = y <-> same_scalar x y).
Proof.
  intros H. split.
  - intros <-. destruct x; cbn in *; try discriminate; constructor.
  - intros S. inversion S; reflexivity.
Qed.
Lemma alike_iff x y : is_scalar_type (getType x) = true -> (getType y = getType x <-> alike x y).
Proof.
  intros H. split.
  - destruct x, y; cbn in *; try discriminate; constructor.
  - intros A. inversion A; reflexivity.
Qed.
Lemma array_iff l y : entry (XArray l) = Ok y <-> same_value (XArray l) y.
Proof.
  cbn [entry]. split.
  - destruct l as [ | x r]; [ discriminate | ]. cbn [getArrayType]. destruct (forallb _ r) eqn:F; [ | discriminate ]. cbn [bind]. destruct (is_scalar_type (getType x)) eqn:S; [ | discriminate ].
    intros E. injection E as <-. rewrite forallb_forall in F. assert (A : Forall (alike x) r). { apply Forall_forall. intros z Hz. apply alike_iff; [ exact S | ]. apply same_type_iff, F, Hz. }
    apply same_array; [ exact A | ]. cbn [map]. constructor; [ apply scalar_iff; auto | ]. clear F. induction A as [ | z t Z A IH]; constructor; [ | exact IH ].
    apply scalar_iff; [ | reflexivity ]. apply alike_iff in Z; [ rewrite Z; exact S | exact S ].
  - intros V. inversion V as [? ? S | x r ys A F | | ]; subst; [ inversion S | ]. inversion F as [ | ? y0 ? ys' F0 F1]; subst. cbn [getArrayType].
    assert (S : is_scalar_type (getType x) = true) by (inversion F0; reflexivity).
    rewrite (proj2 (forallb_forall _ r)); [ | intros z Hz; apply same_type_iff; apply alike_iff; [ exact S | ]; exact (proj1 (Forall_forall _ _) A z Hz) ].
    cbn [bind]. rewrite S. unfold fromArray. f_equal. f_equal. clear A V F. cbn [map]. f_equal; [ apply scalar_iff; assumption | ].
    induction F1 as [ | z w t ws Z F1 IH]; [ reflexivity | ]. cbn [map]. f_equal; [ | exact IH ]. apply scalar_iff; [ inversion Z; reflexivity | exact Z ].
Qed.
Lemma entry_iff x : forall y, entry x = Ok y <-> same_value x y.
Proof.
  induction x as [m IH | x N] using xml_ind'; intros y.
  - cbn [entry]. rewrite toYAML_struct, bind_ok.
    assert (L : forall es, mapM (fun p => do z <- entry (snd p); Ok (fst p, z)) m = Ok es <-> Forall2 (fun a b => fst a = fst b /\ same_value (snd a) (snd b)) m es).
    { induction IH as [ | [k x] r Hx Hr IHr]; intros es; cbn [mapM].
      - split; [ intros E; injection E as <-; constructor | intros F; inversion F; reflexivity ].
      - cbn [fst snd] in *. split.
        + intros E. apply bind_ok in E. destruct E as (p & E1 & E). apply bind_ok in E1. destruct E1 as (z & E1 & E2). injection E2 as <-. apply bind_ok in E. destruct E as (ps & E3 & E). injection E as <-.
          constructor; [ split; [ reflexivity | apply Hx, E1 ] | apply IHr, E3 ].
        + intros F. inversion F as [ | ? [k' z] ? ps [K V] F']; subst. cbn [fst snd] in *. subst k'. apply Hx in V. rewrite V. cbn [bind]. apply IHr in F'. rewrite F'. reflexivity. }
    split.
    + intros (es & E & W). apply L in E. injection W as <-. inversion E as [ | ? ? ? ? E0 E1]; subst; [ exact same_empty | ]. apply same_struct; [ discriminate | ]. constructor; assumption.
    + intros V. inversion V as [? ? S | | | ? n0 Nm F]; subst; [ inversion S | exists []; split; [ apply L; constructor | reflexivity ] | ]. exists n0. split; [ apply L, F | ]. destruct n0; [ inversion F; subst; contradiction | reflexivity ].
  - destruct x as [ | b | z | r | s | t | l | m]; try (exfalso; exact (N _ eq_refl)); try apply array_iff; cbn [entry scalar]; split; intros H; try discriminate;
      try (injection H as <-; apply same_scalar_value; constructor); try (inversion H as [? ? S | | | ]; inversion S; reflexivity).
Qed.
Lemma toYAML_iff v y : toYAML v = Ok y <-> (exists m, v = XStruct m) /\ same_value v y.
Proof.
  split.
  - destruct v as [ | | | | | | | m]; try discriminate. intros H. split; [ eauto | ]. apply entry_iff. exact H.
  - intros [[m ->] H]. apply entry_iff in H. exact H.
Qed.
Definition rt {A} (x : res A) : Prop := (exists a, x = Ok a) \/ x = Throw RuntimeError \/ x = Throw XmlRpcException.
Lemma rt_entry x : rt (entry x).
Proof.
  unfold rt. induction x as [m IH | x N] using xml_ind'.
  - cbn [entry]. rewrite toYAML_struct. assert (L : rt (mapM (fun p => do z <- entry (snd p); Ok (fst p, z)) m)).
    { induction IH as [ | [k x] r Hx Hr IHr]; cbn [mapM]; [ left; eauto | ]. cbn [fst snd] in *. destruct Hx as [[z ->] | [-> | ->]]; cbn [bind]; [ | right; auto .. ]. destruct IHr as [[ps ->] | [-> | ->]]; cbn [bind]; [ left; eauto | right; auto .. ]. }
    destruct L as [[es ->] | [-> | ->]]; cbn [bind]; [ left; eauto | right; auto .. ].
  - destruct x as [ | b | z | r | s | t | l | m]; cbn [entry]; eauto; [ | exfalso; exact (N _ eq_refl) ].
    destruct l as [ | x r]; cbn [getArrayType]; [ cbn; auto | ]. destruct (forallb _ r); cbn [bind]; [ destruct (is_scalar_type _); eauto | auto ].
Qed.
Lemma toYAML_outcomes v : (exists y, toYAML v = Ok y) \/ toYAML v = Throw RuntimeError \/ toYAML v = Throw XmlRpcException.
Proof. destruct v as [ | | | | | | | m]; cbn [toYAML]; auto. exact (rt_entry (XStruct m)). Qed.
Lemma toYAML_member v y key x : toYAML v = Ok y -> member key v x -> exists y', has key y y' /\ same_value x y'.
Proof.
  intros E (m1 & m2 & -> & N). apply toYAML_iff in E. destruct E as [_ V]. inversion V as [? ? S | | K | ? n Nm F]; subst; [ inversion S | destruct m1; discriminate | ].
  apply Forall2_app_inv_l in F. destruct F as (n1 & n2 & F1 & F2 & ->). inversion F2 as [ | ? [k' y'] ? n3 [K V'] F3]; subst. cbn [fst snd] in *. subst k'. exists y'. split; [ | exact V' ]. exists n1, n3. split; [ reflexivity | ].
  replace (map fst n1) with (map fst m1); [ exact N | ]. clear - F1. induction F1 as [ | a b r s [A _] F IH]; [ reflexivity | ]. cbn. rewrite A, IH. reflexivity.
Qed.
Lemma toYAML_keys v y : toYAML v = Ok y -> (v = XStruct [] /\ y = YNull) \/ exists m n, v = XStruct m /\ y = YMap n /\ map fst m = map fst n.
Proof.
  intros E. apply toYAML_iff in E. destruct E as [[m ->] V]. inversion V as [? ? S | | K | ? n Nm F]; subst; [ inversion S | left; auto | ]. right. exists m, n. split; [ reflexivity | split; [ reflexivity | ] ].
  clear - F. induction F as [ | a b r s [A _] F IH]; [ reflexivity | ]. cbn. rewrite A, IH. reflexivity.
Qed.
Lemma toYAML_empty_array key m1 m2 : (forall p, In p m1 -> exists y, same_value (snd p) y) -> toYAML (XStruct (m1 ++ (key, XArray []) :: m2)) = Throw XmlRpcException.
Proof.
  intros H. rewrite toYAML_struct. assert (L : mapM (fun p => do z <- entry (snd p); Ok (fst p, z)) (m1 ++ (key, XArray []) :: m2) = Throw XmlRpcException).
  { induction m1 as [ | [k x] r IH]; [ reflexivity | ]. cbn [mapM app fst snd]. destruct (H (k, x) (or_introl eq_refl)) as [y Y]. apply entry_iff in Y. cbn [snd] in Y. rewrite Y. cbn [bind]. rewrite IH; [ reflexivity | intros; apply H; right; assumption ]. }
  rewrite L. reflexivity.
Qed.
