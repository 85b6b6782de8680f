(** Camera poses of the generators *)
From Coq Require Import Reals ZArith List Lia Lra Psatz.
From Verif.Base Require Import Geom Outcome Matrix.
From Verif.Model Require Import Pose Solver HandEye Simulation.
From Verif.Spec Require Import PinHole Frames TargetSpec SimulationSpec.
From Verif.Proofs Require Import GeomLemmas TargetProofs UniqueLemmas SimulationProofs SimHandEyeProofs.
Import ListNotations.
Local Open Scope R_scope.

Lemma normalized_unit v : dot v v = 1 -> normalized v = v.
Proof.
  intros H. unfold normalized. unfold norm. rewrite H, sqrt_1. destruct (Rlt_dec 0 1); [ | lra ].
  destruct v as [a b c]. unfold vscale; cbn [vx vy vz]; f_equal; field.
Qed.
Definition columns (x y z : vec3) : mat3 := M3 (vx x) (vx y) (vx z) (vy x) (vy y) (vy z) (vz x) (vz y) (vz z).
Lemma frame_rot x z : dot x x = 1 -> dot z z = 1 -> dot x z = 0 -> is_rot (columns x (cross z x) z).
Proof.
  destruct x as [a b c], z as [d e f]. unfold dot; cbn [vx vy vz]. intros Hx Hz H.
  assert (forall u v w u' v' w' : R, (v*w'-w*v')*(v*w'-w*v') + (w*u'-u*w')*(w*u'-u*w') + (u*v'-v*u')*(u*v'-v*u') =
     (u*u+v*v+w*w)*(u'*u'+v'*v'+w'*w') - (u*u'+v*v'+w*w')*(u*u'+v*v'+w*w')) as L by (intros; ring).
  pose proof (L d e f a b c) as L1. rewrite Hx, Hz in L1.
  assert (d * a + e * b + f * c = 0) as H' by lra. rewrite H' in L1.
  split.
  - unfold columns, cross, mmul, mT, I3; cbn [vx vy vz m00 m01 m02 m10 m11 m12 m20 m21 m22]. f_equal; lra.
  - unfold columns, cross, det; cbn [vx vy vz m00 m01 m02 m10 m11 m12 m20 m21 m22].
    transitivity ((a*a+b*b+c*c)*(d*d+e*e+f*f) - (a*d+b*e+c*f)*(a*d+b*e+c*f)); [ ring | rewrite Hx, Hz, H; ring ].
Qed.
Lemma columns_x x y z : mvec (columns x y z) unitX = x.
Proof. destruct x as [a b c]. unfold columns, mvec, unitX; cbn [vx vy vz m00 m01 m02 m10 m11 m12 m20 m21 m22]; f_equal; ring. Qed.
Lemma columns_y x y z : mvec (columns x y z) unitY = y.
Proof. destruct y as [a b c]. unfold columns, mvec, unitY; cbn [vx vy vz m00 m01 m02 m10 m11 m12 m20 m21 m22]; f_equal; ring. Qed.
Lemma columns_z x y z : col2 (columns x y z) = z.
Proof. destruct z as [a b c]. reflexivity. Qed.
Lemma col2_mvec A : col2 A = mvec A unitZ.
Proof. unfold col2, mvec, unitZ; cbn [vx vy vz]; f_equal; ring. Qed.
Lemma lookAt_columns o e up : let z := normalized (vsub e o) in let x := normalized (cross z up) in
  lookAt o e up = Iso (columns x (normalized (cross z x)) z) o.
Proof. reflexivity. Qed.
Lemma normalized_scale_ex v : v <> vzero -> exists k, 0 < k /\ v = vscale k (normalized v) /\ k = norm v.
Proof.
  intros N. exists (norm v). split; [ | split; [ symmetry; apply norm_normalized_scale | reflexivity ] ].
  destruct (norm_nonneg v) as [H | H]; [ exact H | ]. exfalso. apply N, norm_zero. symmetry. exact H.
Qed.
Lemma cross_scale_l k a b : cross (vscale k a) b = vscale k (cross a b).
Proof. unfold cross, vscale; cbn [vx vy vz]; f_equal; ring. Qed.
Lemma vscale_zero k v : k <> 0 -> vscale k v = vzero -> v = vzero.
Proof.
  intros N E. destruct v as [a b c]. unfold vscale, vzero in *; cbn [vx vy vz] in E. injection E as A B C.
  f_equal; apply (Rmult_eq_reg_l k); try exact N; lra.
Qed.
Lemma vscale_0 k : vscale k vzero = vzero.
Proof. unfold vscale, vzero; cbn [vx vy vz]; f_equal; ring. Qed.
Lemma normalized_parallel v b : cross (normalized v) b = vzero <-> cross v b = vzero.
Proof.
  split; intros H.
  - rewrite <- (norm_normalized_scale v), cross_scale_l, H. apply vscale_0.
  - destruct (Rlt_dec 0 (dot v v)) as [P | P].
    + assert (v <> vzero) as N by (intros ->; unfold dot, vzero in P; cbn [vx vy vz] in P; lra).
      destruct (normalized_scale_ex v N) as (k & Hk & E & _). rewrite E, cross_scale_l in H. apply (vscale_zero k) in H; [ exact H | lra ].
    + unfold normalized. destruct (Rlt_dec 0 (dot v v)); [ contradiction | exact H ].
Qed.
Lemma cross_zero_l b : cross vzero b = vzero.
Proof. unfold cross, vzero; cbn [vx vy vz]; f_equal; ring. Qed.

(** ** lookAt *)

Lemma lookAt_good o e up : cross (vsub e o) up <> vzero ->
  rigid (lookAt o e up) /\ tr (lookAt o e up) = o /\ looks_at (lookAt o e up) e /\
  dot (mvec (lin (lookAt o e up)) unitX) up = 0 /\ dot (mvec (lin (lookAt o e up)) unitY) up < 0.
Proof.
  intros N. rewrite lookAt_columns. set (z := normalized (vsub e o)). set (w := cross z up). set (x := normalized w).
  assert (vsub e o <> vzero) as N0 by (intros E; apply N; rewrite E; apply cross_zero_l).
  assert (w <> vzero) as Nw by (intros E; apply N; apply normalized_parallel; exact E).
  assert (dot z z = 1) as Zz by (apply norm_normalized; exact N0).
  assert (dot x x = 1) as Xx by (apply norm_normalized; exact Nw).
  destruct (normalized_scale_ex w Nw) as (k & Hk & Ew & _). fold x in Ew.
  assert (dot x z = 0) as Xz.
  { apply (Rmult_eq_reg_l k); [ | lra ]. transitivity (dot (vscale k x) z); [ unfold dot, vscale; cbn [vx vy vz]; ring | ].
    rewrite <- Ew. unfold w, dot, cross; cbn [vx vy vz]; ring. }
  assert (dot (cross z x) (cross z x) = 1) as Yy.
  { transitivity (dot z z * dot x x - dot x z * dot x z); [ unfold dot, cross; cbn [vx vy vz]; ring | rewrite Zz, Xx, Xz; ring ]. }
  rewrite (normalized_unit (cross z x)) by exact Yy. cbn [lin tr]. unfold rigid; cbn [lin].
  split; [ apply frame_rot; assumption | ]. split; [ reflexivity | ]. split.
  - destruct (normalized_scale_ex _ N0) as (d & Hd & E & _). exists d. split; [ exact Hd | ]. cbn [lin tr]. rewrite columns_z. fold z in E. rewrite <- E.
    unfold vadd, vsub; destruct o, e; cbn [Geom.vx Geom.vy Geom.vz]; f_equal; ring.
  - rewrite columns_x, columns_y. split.
    + apply (Rmult_eq_reg_l k); [ | lra ]. transitivity (dot (vscale k x) up); [ unfold dot, vscale; cbn [vx vy vz]; ring | ].
      rewrite <- Ew. unfold w, dot, cross; cbn [vx vy vz]; ring.
    + apply (Rmult_lt_reg_l k); [ exact Hk | ]. rewrite Rmult_0_r.
      apply Rle_lt_trans with (- (k * k) * dot x x); [ | rewrite Xx; nra ].
      apply Req_le. transitivity (dot (cross z (vscale k x)) up); [ unfold dot, cross, vscale; cbn [vx vy vz]; ring | ].
      transitivity (- dot (vscale k x) (vscale k x)); [ rewrite <- Ew; unfold w, dot, cross; cbn [vx vy vz]; ring | ].
      unfold dot, vscale; cbn [vx vy vz]; ring.
Qed.
Lemma lookAt_bad o e up : cross (vsub e o) up = vzero -> ~ rigid (lookAt o e up).
Proof.
  intros E [H _]. rewrite lookAt_columns in H. apply normalized_parallel in E. rewrite E in H. rewrite normalized_zero in H. cbn [lin] in H.
  apply (f_equal m00) in H. unfold columns, mmul, mT, I3, vzero in H; cbn [vx vy vz m00 m01 m02 m10 m11 m12 m20 m21 m22] in H. lra.
Qed.

(** ** One pose *)

Lemma rigid_cancel_l S T : rigid S -> rigid (iso_mul S T) -> rigid T.
Proof.
  intros HS H. replace T with (iso_mul (iso_inv S) (iso_mul S T)).
  - apply rigid_mul; [ apply rigid_inv; exact HS | exact H ].
  - rewrite <- iso_mul_assoc, iso_inv_l by exact HS. apply iso_mul_id_l.
Qed.
Lemma rigid_cancel_r S T : rigid T -> rigid (iso_mul S T) -> rigid S.
Proof.
  intros HT H. replace S with (iso_mul (iso_mul S T) (iso_inv T)).
  - apply rigid_mul; [ exact H | apply rigid_inv; exact HT ].
  - rewrite iso_mul_assoc, iso_inv_r by exact HT. apply iso_mul_id_r.
Qed.
Lemma rigid_rot_z a : rigid (iso_rot (aa_matrix a unitZ)).
Proof. apply aa_matrix_rot. unfold dot, unitZ; cbn [vx vy vz]; ring. Qed.
Lemma oriented_tr T pos : tr (iso_mul T (iso_trans pos)) = iso_app T pos.
Proof. reflexivity. Qed.
Lemma view_direction T pos : vsub (tr T) (iso_app T pos) = vneg (mvec (lin T) pos).
Proof. unfold iso_app, vsub, vadd, vneg; cbn [vx vy vz]; f_equal; ring. Qed.
Lemma cross_neg a b : cross (vneg a) b = vzero <-> cross a b = vzero.
Proof.
  unfold cross, vneg, vzero; cbn [vx vy vz]. split; intros E; injection E as A B C; f_equal; lra.
Qed.
Lemma oriented_good z O T pos : rigid O -> ~ from_above_or_below T pos -> well_placed z O T pos (oriented z O T pos).
Proof.
  intros HO N. unfold oriented. rewrite oriented_tr. change (V3 1 0 0) with unitX.
  destruct (lookAt_good (iso_app T pos) (tr T) unitX) as (Rg & Ht & Lk & Hx & Hy).
  { rewrite view_direction. intros E. apply N. apply cross_neg. exact E. }
  exists (iso_mul O (lookAt (iso_app T pos) (tr T) unitX)). split; [ reflexivity | ]. split; [ apply rigid_mul; assumption | ].
  split; [ unfold iso_mul; cbn [tr]; rewrite Ht; reflexivity | ]. split.
  - destruct Lk as (d & Hd & E). exists d. split; [ exact Hd | ]. set (L := lookAt (iso_app T pos) (tr T) unitX) in *.
    rewrite E at 1. unfold iso_mul; cbn [tr lin]. rewrite !col2_mvec, mvec_mmul. unfold iso_app. rewrite mvec_vadd, mvec_vscale.
    generalize (mvec (lin O) (tr L)) (mvec (lin O) (mvec (lin L) unitZ)) (tr O). intros a b c.
    unfold vadd, vscale; cbn [vx vy vz]; f_equal; ring.
  - unfold iso_mul; cbn [lin]. rewrite !mvec_mmul, !rot_dot by exact HO. split; assumption.
Qed.
Lemma oriented_bad z O T pos : rigid O -> from_above_or_below T pos -> ~ rigid (oriented z O T pos).
Proof.
  intros HO N H. unfold oriented in H. rewrite oriented_tr in H. apply rigid_cancel_r in H; [ | apply rigid_rot_z ].
  apply rigid_cancel_l in H; [ | exact HO ]. revert H. apply lookAt_bad. rewrite view_direction. apply cross_neg. exact N.
Qed.
Lemma well_placed_rigid z O T pos P : well_placed z O T pos P -> rigid P.
Proof. intros (P0 & -> & H & _). apply rigid_mul; [ exact H | apply rigid_rot_z ]. Qed.
Lemma turned_tr a P : tr (turned_z a P) = tr P.
Proof. unfold turned_z, iso_mul, iso_rot; cbn [tr]. destruct (tr P) as [x y w]. unfold mvec, vadd, vzero; cbn [vx vy vz]; f_equal; ring. Qed.
Lemma turned_axis a P : col2 (lin (turned_z a P)) = col2 (lin P).
Proof.
  unfold turned_z, iso_mul, iso_rot; cbn [lin]. rewrite !col2_mvec, mvec_mmul. f_equal.
  unfold mvec, aa_matrix, unitZ; cbn [vx vy vz m00 m01 m02 m10 m11 m12 m20 m21 m22]; f_equal; ring.
Qed.
Lemma turned_looks a P q : looks_at (turned_z a P) q <-> looks_at P q.
Proof. unfold looks_at. rewrite turned_tr, turned_axis. reflexivity. Qed.
Lemma well_placed_looks z O T pos P : well_placed z O T pos P -> looks_at P (iso_app O (tr T)).
Proof. intros (P0 & -> & _ & _ & H & _). apply turned_looks. exact H. Qed.
Lemma well_placed_tr z O T pos P : well_placed z O T pos P -> tr P = iso_app O (iso_app T pos).
Proof. intros (P0 & -> & _ & H & _). rewrite turned_tr. exact H. Qed.

(** ** The patterns *)

Lemma LinSpaced_spaced n low high i : (i < n)%nat -> LinSpaced n low high i = spaced n low high i.
Proof.
  intros H. unfold LinSpaced, spaced. destruct n as [ | [ | n]]; [ lia | reflexivity | ]. change (Nat.eqb (S (S n)) 1) with false. cbv iota.
  replace (S (S n) - 1)%nat with (S n) by lia. pose proof (lt_0_INR (S n) ltac:(lia)).
  destruct (Nat.eqb_spec i (S n)) as [-> | _]; field; lra.
Qed.
Lemma hemisphere_layout r n m z O T : hemisphere_generate r n m z O T =
  layout n m (fun i j => oriented z O T (sphere_point r (spaced n 0 PI i) (spaced m 0 PI j))).
Proof.
  unfold hemisphere_generate.
  rewrite (fold_layout (fun i j => oriented z O T (sphere_point r (LinSpaced n 0 PI i) (LinSpaced m 0 PI j)))).
  apply layout_ext. intros k j Hk Hj. rewrite !LinSpaced_spaced by assumption. reflexivity.
Qed.
Lemma conical_map r h n z O T : conical_generate r h n z O T = map (fun i => oriented z O T (circle_point r h n i)) (seq 0 n).
Proof.
  unfold conical_generate. rewrite (fold_push (fun i => oriented z O T (V3 (r * cos (INR i * (2 * PI / INR n))) (r * sin (INR i * (2 * PI / INR n))) h))).
  cbn [app]. apply map_ext. intros i. unfold circle_point. replace (INR i * (2 * PI / INR n)) with (2 * PI * (INR i / INR n)) by (unfold Rdiv; ring). reflexivity.
Qed.
Lemma spaced_square n spacing i : (i < n)%nat ->
  spaced n (-1 * (INR (n - 1) / 2 * spacing)) (INR (n - 1) / 2 * spacing) i = (INR i - INR (n - 1) / 2) * spacing.
Proof.
  intros H. unfold spaced. destruct n as [ | [ | n]]; [ lia | | ].
  - cbn [Nat.eqb]. replace i with 0%nat by lia. cbn [Nat.sub INR]. field.
  - change (Nat.eqb (S (S n)) 1) with false. cbv iota. replace (S (S n) - 1)%nat with (S n) by lia.
    pose proof (lt_0_INR (S n) ltac:(lia)). field. lra.
Qed.
Lemma grid_layout spacing h n z O T : (Z.of_nat n < 2 ^ 32)%Z -> grid_generate spacing h n z O T =
  layout n n (fun i j => oriented z O T (square_point spacing h n i j)).
Proof.
  intros B. unfold grid_generate.
  rewrite (fold_layout (fun i j => oriented z O T (V3 (LinSpaced n (-1 * (IZR (u32 (Z.of_nat n - 1)) / 2 * spacing)) (IZR (u32 (Z.of_nat n - 1)) / 2 * spacing) i)
     (LinSpaced n (-1 * (IZR (u32 (Z.of_nat n - 1)) / 2 * spacing)) (IZR (u32 (Z.of_nat n - 1)) / 2 * spacing) j) h))).
  apply layout_ext. intros k j Hk Hj. rewrite !LinSpaced_spaced by assumption. rewrite u32_small by lia.
  replace (IZR (Z.of_nat n - 1)) with (INR (n - 1)) by (rewrite INR_IZR_INZ; f_equal; lia).
  rewrite !spaced_square by assumption. reflexivity.
Qed.

Lemma one_pose z O T pos : rigid O -> let P := oriented z O T pos in
  (~ from_above_or_below T pos -> well_placed z O T pos P) /\ (from_above_or_below T pos -> ~ rigid P).
Proof. intros HO P. split; [ apply oriented_good; exact HO | apply oriented_bad; exact HO ]. Qed.
Lemma hemisphere_poses r n m z O T i j : rigid O -> (i < n)%nat -> (j < m)%nat ->
  let pos := sphere_point r (spaced n 0 PI i) (spaced m 0 PI j) in
  exists P, nth_error (hemisphere_generate r n m z O T) (i * m + j) = Some P /\
    (~ from_above_or_below T pos -> well_placed z O T pos P) /\ (from_above_or_below T pos -> ~ rigid P).
Proof.
  intros HO Hi Hj pos. exists (oriented z O T pos). split; [ rewrite hemisphere_layout, nth_layout by assumption; reflexivity | apply one_pose; exact HO ].
Qed.
Lemma conical_poses r h n z O T i : rigid O -> (i < n)%nat ->
  let pos := circle_point r h n i in
  exists P, nth_error (conical_generate r h n z O T) i = Some P /\
    (~ from_above_or_below T pos -> well_placed z O T pos P) /\ (from_above_or_below T pos -> ~ rigid P).
Proof.
  intros HO Hi pos. exists (oriented z O T pos). split; [ | apply one_pose; exact HO ].
  rewrite conical_map, nth_error_map_seq. destruct (Nat.ltb_spec i n); [ reflexivity | lia ].
Qed.
Lemma grid_poses s h n z O T i j : (Z.of_nat n < 2 ^ 32)%Z -> rigid O -> (i < n)%nat -> (j < n)%nat ->
  let pos := square_point s h n i j in
  exists P, nth_error (grid_generate s h n z O T) (i * n + j) = Some P /\
    (~ from_above_or_below T pos -> well_placed z O T pos P) /\ (from_above_or_below T pos -> ~ rigid P).
Proof.
  intros B HO Hi Hj pos. exists (oriented z O T pos). split; [ rewrite grid_layout, nth_layout by assumption; reflexivity | apply one_pose; exact HO ].
Qed.
Lemma generated_lengths :
  (forall r n m z O T, length (hemisphere_generate r n m z O T) = (n * m)%nat) /\
  (forall r h n z O T, length (conical_generate r h n z O T) = n) /\
  (forall s h n z O T, (Z.of_nat n < 2 ^ 32)%Z -> length (grid_generate s h n z O T) = (n * n)%nat).
Proof.
  split; [ intros; rewrite hemisphere_layout; apply length_layout | ]. split.
  - intros. rewrite conical_map, map_length, seq_length. reflexivity.
  - intros. rewrite grid_layout by assumption. apply length_layout.
Qed.
Lemma spaced_range n low high i : low <= high -> (i < n)%nat -> low <= spaced n low high i <= high.
Proof.
  intros L H. unfold spaced. destruct (Nat.eqb_spec n 1) as [-> | N]; [ lra | ].
  pose proof (lt_0_INR (n - 1) ltac:(lia)) as P. assert (INR i <= INR (n - 1)) as Q by (apply le_INR; lia). pose proof (pos_INR i).
  assert (0 <= INR i / INR (n - 1) <= 1).
  { split; [ apply Rmult_le_pos; [ assumption | left; apply Rinv_0_lt_compat; exact P ] | ].
    apply (Rmult_le_reg_r (INR (n - 1))); [ exact P | ]. unfold Rdiv. rewrite Rmult_assoc, Rinv_l by lra. lra. }
  nra.
Qed.
Lemma sphere_distance r theta phi : norm (sphere_point r theta phi) = Rabs r.
Proof.
  unfold norm, sphere_point, dot; cbn [vx vy vz]. rewrite <- sqrt_Rsqr_abs. f_equal. unfold Rsqr.
  pose proof (sc1 theta) as A. pose proof (sc1 phi) as B.
  transitivity (r * r * (sin phi * sin phi * (cos theta * cos theta + sin theta * sin theta) + cos phi * cos phi)); [ ring | ].
  rewrite A. replace (sin phi * sin phi * 1 + cos phi * cos phi) with 1 by lra. ring.
Qed.
Lemma sphere_half r n m i j : 0 <= r -> (i < n)%nat -> (j < m)%nat ->
  0 <= vy (sphere_point r (spaced n 0 PI i) (spaced m 0 PI j)).
Proof.
  intros Hr Hi Hj. cbn [sphere_point vy]. pose proof PI_RGT_0.
  pose proof (spaced_range n 0 PI i ltac:(lra) Hi). pose proof (spaced_range m 0 PI j ltac:(lra) Hj).
  apply Rmult_le_pos; [ apply Rmult_le_pos; [ exact Hr | ] | ]; apply sin_ge_0; lra.
Qed.
Lemma circle_distance r h n i : sqrt (vx (circle_point r h n i) * vx (circle_point r h n i) + vy (circle_point r h n i) * vy (circle_point r h n i)) = Rabs r /\
  vz (circle_point r h n i) = h.
Proof.
  split; [ | reflexivity ]. cbn [circle_point vx vy]. rewrite <- sqrt_Rsqr_abs. f_equal. unfold Rsqr.
  pose proof (sc1 (2 * PI * (INR i / INR n))) as A.
  transitivity (r * r * (cos (2 * PI * (INR i / INR n)) * cos (2 * PI * (INR i / INR n)) + sin (2 * PI * (INR i / INR n)) * sin (2 * PI * (INR i / INR n)))); [ ring | ].
  rewrite A. ring.
Qed.
(** How far the camera is from the point it looks at *)
Lemma placed_distance z O T pos P : rigid O -> rigid T -> well_placed z O T pos P ->
  norm (vsub (tr P) (iso_app O (tr T))) = norm pos.
Proof.
  intros HO HT W. rewrite (well_placed_tr _ _ _ _ _ W), rigid_dist by exact HO.
  replace (tr T) with (iso_app T vzero).
  - rewrite rigid_dist by exact HT. f_equal. destruct pos as [a b c]. unfold vsub, vzero; cbn [vx vy vz]; f_equal; ring.
  - unfold iso_app, mvec, vadd, vzero; destruct (tr T); cbn [Geom.vx Geom.vy Geom.vz]; f_equal; ring.
Qed.
(** A target whose normal is the x axis, and a camera straight above it *)
Definition ex_upright : iso := Iso (M3 0 0 1 0 1 0 (-1) 0 0) vzero.
Lemma ex_upright_rigid : rigid ex_upright.
Proof.
  split; [ unfold ex_upright, mmul, mT, I3; cbn; f_equal; ring | unfold ex_upright, det; cbn; ring ].
Qed.
Lemma not_always_rigid : exists spacing h n T P, 0 < spacing /\ 0 < h /\ rigid T /\ In P (grid_generate spacing h n 0 iso_id T) /\ ~ rigid P.
Proof.
  exists (2 / 10), 2, 1%nat, ex_upright. destruct (grid_poses (2 / 10) 2 1 0 iso_id ex_upright 0 0) as (P & E & _ & H); [ reflexivity | apply rigid_id | lia | lia | ].
  exists P. split; [ lra | ]. split; [ lra | ]. split; [ exact ex_upright_rigid | ]. split; [ apply nth_error_In in E; exact E | ].
  apply H. unfold from_above_or_below, parallel, square_point, ex_upright, mvec, cross, unitX, vzero.
  cbn [lin vx vy vz m00 m01 m02 m10 m11 m12 m20 m21 m22 INR Nat.sub]. f_equal; field.
Qed.
(** And a target flat on the table, seen from above *)
Lemma ex_flat_good : ~ from_above_or_below iso_id (square_point (2 / 10) 2 3 0 1).
Proof.
  unfold from_above_or_below, parallel, square_point, iso_id, I3, mvec, cross, unitX, vzero.
  cbn [lin vx vy vz m00 m01 m02 m10 m11 m12 m20 m21 m22]. intros E. injection E as _ E _. lra.
Qed.

(** ** The generator with random turns *)

Lemma iter_inside {A} (f : A -> A) n : forall x, Nat.iter n f (f x) = f (Nat.iter n f x).
Proof. induction n as [ | n IH]; intros x; [ reflexivity | ]. cbn. f_equal. apply IH. Qed.
Lemma random_z_state {G} (uniform : R -> R -> G -> R * G) lo hi (poses : list iso) : forall x g,
  snd (fold_left (fun '(_, g) pose =>
          let '(angle, g) := uniform lo hi g in
          let pose := iso_mul pose (iso_rot (aa_matrix angle unitZ)) in (pose, g)) poses (x, g))
  = Nat.iter (length poses) (fun g => snd (uniform lo hi g)) g.
Proof.
  induction poses as [ | P l IH]; intros x g; [ reflexivity | ]. cbn [fold_left length].
  destruct (uniform lo hi g) as [a g'] eqn:E. cbv zeta. rewrite IH. change g' with (snd (a, g')). rewrite <- E.
  exact (iter_inside (fun g => snd (uniform lo hi g)) (length l) g).
Qed.
Lemma random_z_same {G} (uniform : R -> R -> G -> R * G) pg lo hi g T : lo <= hi ->
  random_z_generate uniform pg lo hi g T = Ok (pg T, Nat.iter (length (pg T)) (fun g => snd (uniform lo hi g)) g).
Proof.
  intros H. unfold random_z_generate. destruct (Rle_dec lo hi); [ | contradiction ].
  pose proof (random_z_state uniform lo hi (pg T) iso_id g) as E.
  match goal with |- (let '(_, _) := ?f in _) = _ => destruct f as [x g'] end. cbn [snd] in E. rewrite E. reflexivity.
Qed.
Lemma random_z_not_turned : exists (uniform : R -> R -> unit -> R * unit) pg lo hi T poses g,
  in_bounds uniform /\ lo <= hi /\ random_z_generate uniform pg lo hi tt T = Ok (poses, g) /\
  ~ Forall2 (fun P Q => exists a, lo <= a <= hi /\ Q = turned_z a P) (pg T) poses.
Proof.
  exists (fun a b g => (a, g)), (fun _ => [iso_id]), (PI / 2), (PI / 2), iso_id.
  do 2 eexists. split; [ intros a b g H; cbn [fst]; lra | ]. split; [ lra | ]. split; [ apply random_z_same; lra | ].
  intros F. inversion F as [ | ? ? ? ? (a & Ha & E) _]; subst. apply (f_equal lin), (f_equal m00) in E.
  unfold turned_z, iso_mul, iso_rot, iso_id, mmul, I3, aa_matrix, unitZ in E; cbn [lin m00 m01 m02 m10 m11 m12 m20 m21 m22 vx vy vz] in E.
  replace a with (PI / 2) in E by lra. rewrite cos_PI2 in E. lra.
Qed.

(** ** Where the simulated cameras look *)

Lemma pattern_oriented O g T P : pattern O g -> In P (g T) -> exists z pos, P = oriented z O T pos.
Proof.
  intros [r n m z | r h n z | s h n z] H.
  - rewrite hemisphere_layout in H. apply in_layout in H. destruct H as (i & j & _ & _ & ->). eauto.
  - rewrite conical_map in H. apply in_map_iff in H. destruct H as (i & <- & _). eauto.
  - unfold grid_generate in H.
    rewrite (fold_layout (fun i j => oriented z O T (V3 (LinSpaced n (-1 * (IZR (u32 (Z.of_nat n - 1)) / 2 * s)) (IZR (u32 (Z.of_nat n - 1)) / 2 * s) i)
     (LinSpaced n (-1 * (IZR (u32 (Z.of_nat n - 1)) / 2 * s)) (IZR (u32 (Z.of_nat n - 1)) / 2 * s) j) h))) in H.
    apply in_layout in H. destruct H as (i & j & _ & _ & ->). eauto.
Qed.
Lemma pattern_rigid_looks O g T P : rigid O -> pattern O g -> In P (g T) -> rigid P -> looks_at P (iso_app O (tr T)).
Proof.
  intros HO HP HI HR. destruct (pattern_oriented _ _ _ _ HP HI) as (z & pos & ->).
  assert (~ from_above_or_below T pos) as N by (intros E; exact (oriented_bad z O T pos HO E HR)).
  exact (well_placed_looks _ _ _ _ _ (oriented_good z O T pos HO N)).
Qed.
Lemma taken_camera {I} T X B P (o : observation I) : rigid B -> rigid T -> taken T X B P o -> camera_in_target T X B o = P.
Proof.
  intros HB HT [E1 E2]. unfold camera_in_target. rewrite E1, E2, iso_mul_id_r.
  rewrite <- iso_mul_assoc, iso_inv_l by (apply rigid_mul; assumption). apply iso_mul_id_l.
Qed.
Lemma in_proposals gens T P : In P (proposals gens T) <-> exists g, In g gens /\ In P (g T).
Proof. unfold proposals. rewrite in_flat_map. reflexivity. Qed.
Lemma sim_looks2 cam tgt gens O T X B os o : rigid O -> rigid T -> rigid X -> rigid B -> Forall (pattern O) gens ->
  createObservations2D cam tgt gens T X B = Ok os -> In o os ->
  rigid (camera_in_target T X B o) -> looks_at (camera_in_target T X B o) (iso_app O (tr T)).
Proof.
  intros HO HT HX HB HG E Ho. destruct (create2_ok cam tgt gens T X B HB HT HX) as (os' & E' & F). rewrite E in E'. injection E' as <-.
  destruct (Forall2_in_r _ _ _ o F Ho) as (P & HP & [K _]). rewrite (taken_camera _ _ _ _ _ HB HT K).
  apply in_proposals in HP. destruct HP as (g & Hg & HP). rewrite Forall_forall in HG. apply (pattern_rigid_looks O g); auto.
Qed.
Lemma sim_looks3 tgt gens O T X B o : rigid O -> rigid T -> rigid X -> rigid B -> Forall (pattern O) gens ->
  In o (createObservations3D tgt gens T X B) ->
  rigid (camera_in_target T X B o) -> looks_at (camera_in_target T X B o) (iso_app O (tr T)).
Proof.
  intros HO HT HX HB HG Ho. pose proof (create3_ok tgt gens T X B HB HT HX) as F.
  destruct (Forall2_in_r _ _ _ o F Ho) as (P & HP & [K _]). rewrite (taken_camera _ _ _ _ _ HB HT K).
  apply in_proposals in HP. destruct HP as (g & Hg & HP). rewrite Forall_forall in HG. apply (pattern_rigid_looks O g); auto.
Qed.
Lemma looks_past : exists tgt gens T o, rigid T /\ Forall (pattern iso_id) gens /\
  In o (createObservations3D tgt gens T iso_id iso_id) /\ rigid (camera_in_target T iso_id iso_id o) /\
  ~ looks_at (camera_in_target T iso_id iso_id o) vzero.
Proof.
  set (T := Iso I3 (V3 0 1 0)). set (g := grid_generate (2 / 10) 2 1 0 iso_id).
  assert (rigid T) as HT by exact rigid_id.
  destruct (grid_poses (2 / 10) 2 1 0 iso_id T 0 0) as (P & E & W & _); [ reflexivity | apply rigid_id | lia | lia | ].
  assert (~ from_above_or_below T (square_point (2 / 10) 2 1 0 0)) as N.
  { unfold from_above_or_below, parallel, square_point, T, I3, mvec, cross, unitX, vzero.
    cbn [lin vx vy vz m00 m01 m02 m10 m11 m12 m20 m21 m22 INR Nat.sub]. intros K. injection K as K1 K2. lra. }
  specialize (W N). pose proof (well_placed_rigid _ _ _ _ _ W) as HP. pose proof (well_placed_looks _ _ _ _ _ W) as HL.
  pose proof (well_placed_tr _ _ _ _ _ W) as HR.
  pose proof (create3_ok (mk_target 2 2 1) [g] T iso_id iso_id rigid_id HT rigid_id) as F.
  assert (In P (proposals [g] T)) as HI by (apply in_proposals; exists g; split; [ left; reflexivity | apply nth_error_In in E; exact E ]).
  destruct (Forall2_in_l _ _ _ P F HI) as (o & Ho & [K _]).
  exists (mk_target 2 2 1), [g], T, o. rewrite (taken_camera _ _ _ _ _ rigid_id HT K).
  split; [ exact HT | ]. split; [ constructor; [ apply pattern_grid | constructor ] | ]. split; [ exact Ho | ]. split; [ exact HP | ].
  intros (d & Hd & L). destruct HL as (e & He & M).
  apply (f_equal vy) in L. apply (f_equal vy) in M.
  rewrite HR in L, M. cbn [vy vadd vscale] in L, M. set (c := m12 (lin P)).
  unfold T, iso_id, iso_app, mvec, I3, square_point, vadd, vzero in L, M. cbn in L, M.
  change (m12 (lin P)) with c in L, M. clearbody c.
  assert (e * c = 0) as Q by lra. assert (c = 0) by (destruct (Rmult_integral _ _ Q); lra). nra.
Qed.
