(** Proofs about line/plane intersection and back-projection. *)
From Coq Require Import Reals Lra Psatz Lia Arith List.
From Verif.Base Require Import Geom Outcome Matrix.
From Verif.Model Require Import Pose HandEye Projection.
From Verif.Spec Require Import PinHole Frames ProjectionSpec.
From Verif.Proofs Require Import GeomLemmas ListLemmas.
Import ListNotations.
Local Open Scope R_scope.

(** ** C25 *)
Lemma intersection_throws n pp d lp eps :
  computeLinePlaneIntersection n pp d lp eps = Throw RuntimeError <-> Rabs (dot d n) < eps.
Proof. unfold computeLinePlaneIntersection. destruct (Rlt_dec _ _); split; intros; try assumption; try reflexivity; try discriminate; contradiction. Qed.
Lemma intersection_ok n pp d lp eps : 0 < eps -> eps <= Rabs (dot d n) ->
  exists p, computeLinePlaneIntersection n pp d lp eps = Ok p /\ on_plane n pp p /\ on_line d lp p /\
    forall q, on_plane n pp q -> on_line d lp q -> q = p.
Proof.
  intros He H. unfold computeLinePlaneIntersection. destruct (Rlt_dec _ _) as [L | L]; [ lra | ]. cbv zeta.
  assert (N : dot d n <> 0) by (intros E; rewrite E, Rabs_R0 in H; lra).
  eexists. split; [ reflexivity | ]. split; [ | split ].
  - unfold on_plane. destruct n as [a b c], pp as [x y z], d as [e f g], lp as [u v w]. geo_unfold. field. exact N.
  - eexists. reflexivity.
  - intros q Hq [t ->]. f_equal. f_equal. unfold on_plane in Hq.
    destruct n as [a b c], pp as [x y z], d as [e f g], lp as [u v w]. geo_unfold.
    apply (Rmult_eq_reg_r (e * a + f * b + g * c)); [ | exact N ]. unfold Rdiv. rewrite Rmult_assoc, Rinv_l by exact N. lra.
Qed.
Lemma intersection_at n pp d lp eps q : 0 < eps -> eps <= Rabs (dot d n) -> on_plane n pp q -> on_line d lp q ->
  computeLinePlaneIntersection n pp d lp eps = Ok q.
Proof. intros He H P L. destruct (intersection_ok n pp d lp eps He H) as (p & E & _ & _ & U). rewrite (U q P L). exact E. Qed.

(** ** Rays *)
Lemma default_epsilon_pos : 0 < default_epsilon.
Proof. unfold default_epsilon. lra. Qed.
Lemma inverse3_camera k p : fx k <> 0 -> fy k <> 0 ->
  mvec (inverse3 (camera_matrix k)) (V3 (px p) (py p) 1) = sight k p.
Proof.
  intros Fx Fy. unfold inverse3, camera_matrix, sight. geo_unfold. f_equal; field; repeat split; assumption.
Qed.
Lemma sight_nonzero k p : sight k p <> vzero.
Proof. intros E. apply (f_equal vz) in E. cbn in E. lra. Qed.
Lemma norm_pos v : v <> vzero -> 0 < norm v.
Proof. intros N. destruct (norm_nonneg v) as [H | H]; [ exact H | ]. exfalso. apply N, norm_zero. symmetry. exact H. Qed.
Lemma dot_vscale_l k u v : dot (vscale k u) v = k * dot u v.
Proof. geo_unfold. ring. Qed.
Lemma vscale_vscale a b v : vscale a (vscale b v) = vscale (a * b) v.
Proof. geo_ring. Qed.
Lemma vadd_zero_l v : vadd vzero v = v.
Proof. geo_ring. Qed.
(** The normalized ray is as steep as the line of sight. *)
Lemma crosses_ray T v : v <> vzero ->
  default_epsilon <= Rabs (dot (normalized v) (col2 (lin T))) <-> crosses_plane T v.
Proof.
  intros N. pose proof (norm_pos v N) as P. unfold crosses_plane, default_epsilon.
  rewrite <- (norm_normalized_scale v) at 3. rewrite dot_vscale_l, Rabs_mult, (Rabs_right (norm v)) by lra.
  set (x := Rabs _). split; intros H; nra.
Qed.
Lemma ray_line v q : v <> vzero -> on_line (normalized v) vzero q <-> exists t, q = vscale t v.
Proof.
  intros N. pose proof (norm_pos v N) as P. unfold on_line. split; intros [t ->].
  - exists (t / norm v). rewrite vadd_zero_l. rewrite <- (norm_normalized_scale v) at 3. rewrite vscale_vscale.
    f_equal. field. lra.
  - exists (t * norm v). rewrite vadd_zero_l, <- vscale_vscale, norm_normalized_scale. reflexivity.
Qed.
(** Points of the target's plane. *)
Lemma plane_z T r : rigid T -> on_plane (col2 (lin T)) (tr T) (iso_app T r) <-> vz r = 0.
Proof.
  intros R. unfold on_plane.
  replace (vsub (iso_app T r) (tr T)) with (mvec (lin T) r) by geo_ring.
  replace (col2 (lin T)) with (mvec (lin T) (V3 0 0 1)) by geo_ring.
  rewrite (rot_dot _ _ _ R). geo_unfold. split; intros; lra.
Qed.

(** ** project3D on one pixel *)
Definition back_project (T : iso) (k : intrinsics) (p : vec2) : res vec3 :=
  do q <- computeLinePlaneIntersection (col2 (lin T)) (tr T) (normalized (sight k p)) vzero default_epsilon;
  Ok (iso_app (iso_inv T) q).
Lemma mapM_map {A B C} (f : B -> res C) (g : A -> B) l : mapM f (map g l) = mapM (fun a => f (g a)) l.
Proof. induction l as [ | a l IH]; cbn; [ reflexivity | rewrite IH; reflexivity ]. Qed.
Lemma mapM_then {A B C} (f : A -> res B) (g : B -> C) l :
  (do x <- mapM f l; Ok (map g x)) = mapM (fun a => do b <- f a; Ok (g b)) l.
Proof.
  induction l as [ | a l IH]; cbn; [ reflexivity | ]. rewrite <- IH. destruct (f a); cbn; try reflexivity.
  destruct (mapM f l); reflexivity.
Qed.
Lemma mapM_ext {A B} (f g : A -> res B) l : (forall a, f a = g a) -> mapM f l = mapM g l.
Proof. intros H. induction l as [ | a l IH]; cbn; [ reflexivity | rewrite IH, H; reflexivity ]. Qed.
Lemma project3D_each pixels T k : fx k <> 0 -> fy k <> 0 ->
  project3D pixels T (camera_matrix k) = mapM (back_project T k) pixels.
Proof.
  intros Fx Fy. unfold project3D. cbv zeta. rewrite map_map, mapM_map, mapM_then. apply mapM_ext.
  intros p. rewrite inverse3_camera by assumption. reflexivity.
Qed.
Lemma back_project_throws T k p : ~ crosses_plane T (sight k p) -> back_project T k p = Throw RuntimeError.
Proof.
  intros H. unfold back_project.
  replace (computeLinePlaneIntersection _ _ _ _ _) with (@Throw vec3 RuntimeError); [ reflexivity | ].
  symmetry. apply intersection_throws. apply Rnot_le_lt. intros L. apply H. apply crosses_ray; [ apply sight_nonzero | exact L ].
Qed.
Lemma back_project_ok T k p : rigid T -> crosses_plane T (sight k p) ->
  exists r, back_project T k p = Ok r /\ vz r = 0 /\ (exists t, iso_app T r = vscale t (sight k p)) /\
    forall r', vz r' = 0 -> (exists t, iso_app T r' = vscale t (sight k p)) -> r' = r.
Proof.
  intros R C. apply crosses_ray in C; [ | apply sight_nonzero ].
  destruct (intersection_ok (col2 (lin T)) (tr T) (normalized (sight k p)) vzero default_epsilon default_epsilon_pos C)
    as (q & E & P & L & U).
  exists (iso_app (iso_inv T) q). unfold back_project. rewrite E. cbn [bind]. split; [ reflexivity | ].
  split; [ apply (plane_z T _ R); rewrite iso_app_inv_r by exact R; exact P | ].
  split; [ rewrite iso_app_inv_r by exact R; apply ray_line in L; [ exact L | apply sight_nonzero ] | ].
  intros r' Z L'. rewrite <- (U (iso_app T r')); [ rewrite iso_app_inv_l by exact R; reflexivity | apply plane_z; assumption | ].
  apply ray_line; [ apply sight_nonzero | exact L' ].
Qed.
(** The pixel of a point looks at the point. *)
Lemma pinhole_sight k q : fx k <> 0 -> fy k <> 0 -> vz q <> 0 -> sight k (pinhole k q) = vscale (/ vz q) q.
Proof.
  intros Fx Fy N. destruct q as [x y z]. unfold sight, pinhole. geo_unfold. f_equal; field; repeat split; assumption.
Qed.
Lemma sight_pinhole k p q : fx k <> 0 -> fy k <> 0 -> vz q <> 0 ->
  (exists t, q = vscale t (sight k p)) <-> p = pinhole k q.
Proof.
  intros Fx Fy N. split.
  - intros [t ->]. unfold pinhole, sight in *. destruct p as [u v]. geo_unfold. f_equal; field; repeat split; try assumption; lra.
  - intros ->. exists (vz q). rewrite pinhole_sight by assumption. destruct q as [x y z]. geo_unfold. f_equal; field; exact N.
Qed.
Lemma crosses_scale T s v : s <> 0 -> crosses_plane T (vscale s v) <-> crosses_plane T v.
Proof.
  intros N. unfold crosses_plane. rewrite dot_vscale_l, Rabs_mult.
  assert (E : norm (vscale s v) = Rabs s * norm v).
  { unfold norm. replace (dot (vscale s v) (vscale s v)) with (Rsqr s * dot v v) by (unfold Rsqr; geo_unfold; ring).
    rewrite sqrt_mult by (try apply Rle_0_sqr; apply dot_pos). rewrite sqrt_Rsqr_abs. reflexivity. }
  rewrite E. pose proof (Rabs_pos_lt s N). split; intros H'; nra.
Qed.
Lemma back_project_inverts T k r : fx k <> 0 -> fy k <> 0 -> rigid T -> vz r = 0 ->
  vz (iso_app T r) <> 0 -> crosses_plane T (iso_app T r) ->
  back_project T k (pinhole k (iso_app T r)) = Ok r.
Proof.
  intros Fx Fy R Z N C. set (q := iso_app T r) in *.
  destruct (back_project_ok T k (pinhole k q) R) as (r' & E & Z' & _ & U).
  - rewrite pinhole_sight by assumption. apply crosses_scale; [ apply Rinv_neq_0_compat; exact N | exact C ].
  - rewrite E. f_equal. symmetry. apply U; [ exact Z | ]. fold q. apply sight_pinhole; try assumption. reflexivity.
Qed.

(** ** C26: lists of pixels *)
Lemma mapM_nth {A B} (f : A -> res B) l bs : mapM f l = Ok bs ->
  forall i a b, nth_error l i = Some a -> nth_error bs i = Some b -> f a = Ok b.
Proof.
  revert bs. induction l as [ | a l IH]; intros bs H i x y Hx Hy; [ destruct i; discriminate | ].
  cbn in H. destruct (f a) as [b | | ] eqn:E; cbn in H; try discriminate. destruct (mapM f l) as [bs' | | ] eqn:E'; cbn in H; try discriminate.
  injection H as <-. destruct i as [ | i]; cbn in Hx, Hy; [ injection Hx as <-; injection Hy as <-; exact E | eauto ].
Qed.
Lemma project_throws pixels T k : fx k <> 0 -> fy k <> 0 -> rigid T ->
  (project3D pixels T (camera_matrix k) = Throw RuntimeError <-> Exists (fun p => ~ crosses_plane T (sight k p)) pixels) /\
  (is_ok (project3D pixels T (camera_matrix k)) <-> Forall (fun p => crosses_plane T (sight k p)) pixels).
Proof.
  intros Fx Fy R. rewrite project3D_each by assumption. split.
  - induction pixels as [ | p l IH]; cbn [mapM].
    + split; [ discriminate | intros H; inversion H ].
    + rewrite Exists_cons, <- IH. destruct (Rle_dec (1 / 10 ^ 6 * norm (sight k p)) (Rabs (dot (sight k p) (col2 (lin T))))) as [C | C].
      * destruct (back_project_ok T k p R C) as (r & -> & _). cbn [bind].
        destruct (mapM _ l) as [x | e | ]; cbn [bind]; split; intros H; try discriminate; try (destruct H as [H | H]; [ contradiction | discriminate ]);
          first [ right; exact H | destruct H as [H | H]; [ contradiction | exact H ] ].
      * rewrite (back_project_throws T k p C). cbn [bind]. tauto.
  - rewrite mapM_ok_iff, Forall_forall. split; intros H p Hp; specialize (H p Hp).
    + destruct (Rle_dec (1 / 10 ^ 6 * norm (sight k p)) (Rabs (dot (sight k p) (col2 (lin T))))) as [C | C]; [ exact C | ].
      destruct H as [r H]. rewrite (back_project_throws T k p C) in H. discriminate.
    + destruct (back_project_ok T k p R H) as (r & E & _). exists r. exact E.
Qed.
Lemma project_spec pixels T k pts : fx k <> 0 -> fy k <> 0 -> rigid T ->
  project3D pixels T (camera_matrix k) = Ok pts ->
  List.length pts = List.length pixels /\
  forall i p r, nth_error pixels i = Some p -> nth_error pts i = Some r ->
    vz r = 0 /\ (exists t, iso_app T r = vscale t (sight k p)) /\
    forall r', vz r' = 0 -> (exists t, iso_app T r' = vscale t (sight k p)) -> r' = r.
Proof.
  intros Fx Fy R E.
  assert (F : Forall (fun p => crosses_plane T (sight k p)) pixels) by (apply (project_throws pixels T k Fx Fy R); eexists; exact E).
  rewrite project3D_each in E by assumption. split; [ apply (mapM_length _ _ _ E) | ].
  intros i p r Hp Hr. pose proof (mapM_nth _ _ _ E i p r Hp Hr) as B.
  rewrite Forall_forall in F. destruct (back_project_ok T k p R (F p (nth_error_In _ _ Hp))) as (r0 & B0 & X).
  rewrite B in B0. injection B0 as <-. exact X.
Qed.
Lemma project_inverts pts T k : fx k <> 0 -> fy k <> 0 -> rigid T ->
  (forall r, In r pts -> vz r = 0 /\ vz (iso_app T r) <> 0 /\ crosses_plane T (iso_app T r)) ->
  project3D (map (fun r => pinhole k (iso_app T r)) pts) T (camera_matrix k) = Ok pts.
Proof.
  intros Fx Fy R H. rewrite project3D_each by assumption. rewrite mapM_map.
  rewrite (mapM_ok _ (fun r => r)); [ rewrite map_id; reflexivity | ].
  intros r Hr. destruct (H r Hr) as (Z & N & C). apply back_project_inverts; assumption.
Qed.

(** ** Projection errors *)
Lemma camera_to_target_eq C T (o : observation vec2) : rigid C -> rigid (to_camera_mount o) ->
  iso_mul (iso_mul (iso_mul (iso_inv C) (iso_inv (to_camera_mount o))) (to_target_mount o)) T =
  target_in_camera C (to_camera_mount o) (to_target_mount o) T.
Proof.
  intros RC RM. unfold target_in_camera. rewrite iso_inv_mul by exact RM. rewrite !iso_mul_assoc. reflexivity.
Qed.
Lemma combine_map_self {A B C} (f : A -> B) (g : A -> C) l : combine (map f l) (map g l) = map (fun a => (f a, g a)) l.
Proof. induction l as [ | a l IH]; cbn; [ reflexivity | rewrite IH; reflexivity ]. Qed.
Section Errors.
Variables (k : intrinsics) (C T : iso).
Hypotheses (Fx : fx k <> 0) (Fy : fy k <> 0) (RC : rigid C) (RT : rigid T).
Let pose (o : observation vec2) := target_in_camera C (to_camera_mount o) (to_target_mount o) T.
Lemma pose_rigid o : rigid (to_camera_mount o) -> rigid (to_target_mount o) -> rigid (pose o).
Proof. intros A B. unfold pose, target_in_camera. apply rigid_mul; [ apply rigid_inv, rigid_mul; assumption | apply rigid_mul; assumption ]. Qed.
Lemma error_unfold o : rigid (to_camera_mount o) ->
  compute3DProjectionError o k C T =
  (do pts <- mapM (back_project (pose o) k) (map (fun c => in_image c) (correspondence_set o));
   Ok (map (fun tp => norm (vsub (fst tp) (snd tp))) (combine (map (fun c => in_target c) (correspondence_set o)) pts))).
Proof.
  intros RM. unfold compute3DProjectionError. cbv zeta. rewrite camera_to_target_eq by assumption.
  fold (pose o). fold (camera_matrix k). rewrite project3D_each by assumption. reflexivity.
Qed.
Lemma error_outcome o : rigid (to_camera_mount o) -> rigid (to_target_mount o) ->
  (is_ok (compute3DProjectionError o k C T) <->
   Forall (fun c => crosses_plane (pose o) (sight k (in_image c))) (correspondence_set o)) /\
  (compute3DProjectionError o k C T = Throw RuntimeError \/ is_ok (compute3DProjectionError o k C T)).
Proof.
  intros RM RN. pose proof (pose_rigid o RM RN) as RP. rewrite error_unfold by exact RM.
  pose proof (project_throws (map (fun c => in_image c) (correspondence_set o)) (pose o) k Fx Fy RP) as [X Y].
  rewrite project3D_each in X, Y by assumption. rewrite Forall_map in Y.
  destruct (mapM _ _) as [pts | e | ] eqn:E; cbn [bind].
  - split; [ rewrite <- Y; split; intros _; eexists; reflexivity | right; eexists; reflexivity ].
  - split; [ rewrite <- Y; split; intros [? H]; discriminate | ]. left.
    destruct (Forall_Exists_dec (fun p => crosses_plane (pose o) (sight k p)) (fun p => Rle_dec _ _) (map (fun c => in_image c) (correspondence_set o))) as [F | F].
    + rewrite Forall_map in F. apply Y in F. destruct F as [? F]. discriminate.
    + apply X in F. injection F as ->. reflexivity.
  - exfalso. destruct (Forall_Exists_dec (fun p => crosses_plane (pose o) (sight k p)) (fun p => Rle_dec _ _) (map (fun c => in_image c) (correspondence_set o))) as [F | F].
    + rewrite Forall_map in F. apply Y in F. destruct F as [? F]. discriminate.
    + apply X in F. discriminate.
Qed.
(** Each error is the distance between the target point and the point of the target plane its pixel looks at. *)
Lemma error_spec o es : rigid (to_camera_mount o) -> rigid (to_target_mount o) ->
  compute3DProjectionError o k C T = Ok es ->
  List.length es = List.length (correspondence_set o) /\
  forall i c e, nth_error (correspondence_set o) i = Some c -> nth_error es i = Some e ->
    exists r, vz r = 0 /\ (exists t, iso_app (pose o) r = vscale t (sight k (in_image c))) /\
      (forall r', vz r' = 0 -> (exists t, iso_app (pose o) r' = vscale t (sight k (in_image c))) -> r' = r) /\
      e = norm (vsub (in_target c) r).
Proof.
  intros RM RN E. pose proof (pose_rigid o RM RN) as RP. rewrite error_unfold in E by exact RM.
  destruct (mapM _ _) as [pts | | ] eqn:Em; cbn [bind] in E; try discriminate. injection E as <-.
  rewrite <- project3D_each in Em by assumption.
  destruct (project_spec _ _ _ _ Fx Fy RP Em) as [L S]. rewrite map_length in L. split.
  - rewrite map_length, combine_length, map_length. lia.
  - intros i c e Hc He. rewrite nth_error_map in He.
    destruct (nth_error (combine _ pts) i) as [[t r] | ] eqn:Ei; cbn in He; [ | discriminate ]. injection He as <-.
    assert (Hr : nth_error pts i = Some r /\ t = in_target c).
    { clear - Ei Hc. revert pts i Ei Hc. induction (correspondence_set o) as [ | a l IH]; intros pts i Ei Hc; [ destruct i; discriminate | ].
      destruct pts as [ | p pts]; [ destruct i; discriminate | ]. destruct i as [ | i]; cbn in Ei, Hc |- *.
      - injection Ei as <- <-. injection Hc as <-. split; reflexivity.
      - exact (IH pts i Ei Hc). }
    destruct Hr as [Hr ->]. exists r.
    destruct (S i (in_image c) r) as (A & B & D); [ rewrite nth_error_map, Hc; reflexivity | exact Hr | ].
    repeat split; assumption.
Qed.
Lemma norm_vsub_zero a b : norm (vsub a b) = 0 <-> a = b.
Proof.
  split.
  - intros E. apply norm_zero in E. pose proof (f_equal vx E). pose proof (f_equal vy E). pose proof (f_equal vz E).
    destruct a, b. geo_unfold. f_equal; lra.
  - intros ->. replace (vsub b b) with vzero by geo_ring. apply norm_vzero.
Qed.
(** The error of a flat target's point is zero exactly if its pixel is where the camera sees it. *)
Lemma error_zero_iff o es i c e : rigid (to_camera_mount o) -> rigid (to_target_mount o) ->
  compute3DProjectionError o k C T = Ok es ->
  nth_error (correspondence_set o) i = Some c -> nth_error es i = Some e ->
  vz (in_target c) = 0 -> vz (iso_app (pose o) (in_target c)) <> 0 ->
  e = 0 <-> in_image c = pinhole k (iso_app (pose o) (in_target c)).
Proof.
  intros RM RN E Hc He Z N. destruct (error_spec o es RM RN E) as [_ S].
  destruct (S i c e Hc He) as (r & Zr & Lr & U & ->). rewrite norm_vsub_zero. split.
  - intros <-. apply sight_pinhole; assumption.
  - intros P. apply U; [ exact Z | ]. apply sight_pinhole; assumption.
Qed.
Lemma error_perfect o : rigid (to_camera_mount o) -> rigid (to_target_mount o) ->
  (forall c, In c (correspondence_set o) -> vz (in_target c) = 0 /\ vz (iso_app (pose o) (in_target c)) <> 0 /\
     crosses_plane (pose o) (iso_app (pose o) (in_target c)) /\ in_image c = pinhole k (iso_app (pose o) (in_target c))) ->
  compute3DProjectionError o k C T = Ok (map (fun _ => 0) (correspondence_set o)).
Proof.
  intros RM RN H. pose proof (pose_rigid o RM RN) as RP. rewrite error_unfold by exact RM. rewrite mapM_map.
  rewrite (mapM_ok _ (fun c => in_target c)).
  - cbn [bind]. rewrite combine_map_self, map_map. f_equal. apply map_ext. intros c. cbn [fst snd]. apply norm_vsub_zero. reflexivity.
  - intros c Hc. destruct (H c Hc) as (Z & N & X & ->). apply back_project_inverts; assumption.
Qed.
(** All observations, in order. *)
Lemma error_set_fold os acc :
  foldM (fun error obs => do e <- compute3DProjectionError obs k C T; Ok (error ++ e)%list) os acc =
  (do ess <- mapM (fun o => compute3DProjectionError o k C T) os; Ok (acc ++ List.concat ess)%list).
Proof.
  revert acc. induction os as [ | o os IH]; intros acc; cbn [foldM mapM].
  - cbn. rewrite app_nil_r. reflexivity.
  - destruct (compute3DProjectionError o k C T) as [e | | ]; cbn [bind]; try reflexivity. rewrite IH.
    destruct (mapM _ os); cbn [bind List.concat]; try reflexivity. rewrite app_assoc. reflexivity.
Qed.
Lemma error_set_eq os : compute3DProjectionError_set os k C T =
  (do ess <- mapM (fun o => compute3DProjectionError o k C T) os; Ok (List.concat ess)).
Proof. unfold compute3DProjectionError_set. rewrite error_set_fold. reflexivity. Qed.
Lemma error_set_spec os es : compute3DProjectionError_set os k C T = Ok es <->
  exists ess, es = List.concat ess /\ Forall2 (fun o e => compute3DProjectionError o k C T = Ok e) os ess.
Proof.
  rewrite error_set_eq. clear RC RT Fx Fy.
  assert (M : forall ess, mapM (fun o => compute3DProjectionError o k C T) os = Ok ess <->
                          Forall2 (fun o e => compute3DProjectionError o k C T = Ok e) os ess).
  { induction os as [ | o os IH]; intros ess; cbn [mapM].
    - split; [ intros E; injection E as <-; constructor | intros E; inversion E; reflexivity ].
    - destruct (compute3DProjectionError o k C T) as [e | | ] eqn:Eo; cbn [bind].
      + split.
        * destruct (mapM _ os) as [ess' | | ] eqn:E; cbn [bind]; try discriminate. intros H. injection H as <-.
          constructor; [ exact Eo | apply IH; reflexivity ].
        * intros H. inversion H as [ | o' e' os' ess' He Ht ]; subst. rewrite Eo in He. injection He as <-.
          apply IH in Ht. rewrite Ht. reflexivity.
      + split; [ discriminate | intros H; inversion H as [ | o' e' os' ess' He Ht ]; subst; congruence ].
      + split; [ discriminate | intros H; inversion H as [ | o' e' os' ess' He Ht ]; subst; congruence ]. }
  split.
  - destruct (mapM _ os) as [ess | | ] eqn:E; cbn [bind]; try discriminate. intros H. injection H as <-.
    exists ess. split; [ reflexivity | apply M; reflexivity ].
  - intros (ess & -> & H). apply M in H. rewrite H. reflexivity.
Qed.
Lemma error_set_perfect os :
  (forall o, In o os -> rigid (to_camera_mount o) /\ rigid (to_target_mount o) /\
    forall c, In c (correspondence_set o) -> vz (in_target c) = 0 /\ vz (iso_app (pose o) (in_target c)) <> 0 /\
     crosses_plane (pose o) (iso_app (pose o) (in_target c)) /\ in_image c = pinhole k (iso_app (pose o) (in_target c))) ->
  compute3DProjectionError_set os k C T = Ok (map (fun _ => 0) (all_pairs os)).
Proof.
  intros H. rewrite error_set_eq. rewrite (mapM_ok _ (fun o => map (fun _ => 0) (correspondence_set o))).
  - cbn [bind]. f_equal. unfold all_pairs. clear H. induction os as [ | o os IH]; cbn; [ reflexivity | ].
    rewrite map_app, map_map, <- IH. reflexivity.
  - intros o Ho. destruct (H o Ho) as (A & B & D). apply error_perfect; assumption.
Qed.
End Errors.

(** ** A concrete case: two cameras looking at a flat target. *)
Definition ex_pose : iso := Iso I3 (V3 0 0 2).
Definition ex_k : intrinsics := Intr 500 400 320 240.
Definition ex_points : list vec3 := [V3 0 0 0; V3 1 0 0; V3 0 1 0].
Lemma ex_points_fit : rigid ex_pose /\ forall r, In r ex_points ->
  vz r = 0 /\ vz (iso_app ex_pose r) <> 0 /\ crosses_plane ex_pose (iso_app ex_pose r).
Proof.
  split; [ exact rigid_id | ]. intros r Hr.
  assert (B : norm (iso_app ex_pose r) <= 3).
  { unfold norm. replace 3 with (sqrt (3 * 3)) by (apply sqrt_square; lra). apply sqrt_le_1_alt.
    cbn in Hr. repeat destruct Hr as [<- | Hr]; try contradiction; unfold ex_pose; geo_unfold; lra. }
  assert (D : Rabs (dot (iso_app ex_pose r) (col2 (lin ex_pose))) = 2).
  { cbn in Hr. repeat destruct Hr as [<- | Hr]; try contradiction; unfold ex_pose; geo_unfold; apply Rabs_right || idtac;
      match goal with |- Rabs ?x = 2 => replace x with 2 by ring; apply Rabs_right; lra end. }
  split; [ cbn in Hr; repeat destruct Hr as [<- | Hr]; try contradiction; reflexivity | ].
  split; [ cbn in Hr; repeat destruct Hr as [<- | Hr]; try contradiction; unfold ex_pose; geo_unfold; lra | ].
  unfold crosses_plane. rewrite D. lra.
Qed.
Lemma ex_intersection :
  computeLinePlaneIntersection (V3 0 0 1) (V3 5 5 3) (V3 1 0 1) (V3 0 0 1) (1 / 10 ^ 6) = Ok (V3 2 0 3).
Proof.
  apply intersection_at.
  - lra.
  - geo_unfold. replace (1 * 0 + 0 * 0 + 1 * 1) with 1 by ring. rewrite Rabs_R1. lra.
  - unfold on_plane. geo_unfold. ring.
  - exists 2. geo_ring.
Qed.
