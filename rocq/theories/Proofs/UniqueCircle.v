(** C80: a circle through three different points is the only one. *)
From Coq Require Import Reals Arith List Lra Psatz Lia.
From Verif.Base Require Import Geom Outcome.
From Verif.Model Require Import Solver CircleFit.
From Verif.Spec Require Import CircleSpec UniqueSpec OracleSpec.
From Verif.Proofs Require Import HandEyeProofs CircleFitProofs UniqueLemmas UniqueProofs UniqueExamples.
Import ListNotations.
Local Open Scope R_scope.

Definition sq (c p : vec2) : R := (px p - px c) * (px p - px c) + (py p - py c) * (py p - py c).
Lemma on_circle_sq c r p : on_circle c r p -> sq c p = r * r.
Proof.
  unfold on_circle, dist2, sq. intros <-. rewrite sqrt_sqrt; [ reflexivity | ].
  pose proof (Rle_0_sqr (px p - px c)). pose proof (Rle_0_sqr (py p - py c)). unfold Rsqr in *. lra.
Qed.
Lemma plane_zero x y : x * x + y * y = 0 -> x = 0 /\ y = 0.
Proof. intros H. split; nra. Qed.
Lemma plane_neq a b : a <> b -> (px b - px a) * (px b - px a) + (py b - py a) * (py b - py a) <> 0.
Proof. intros N E. apply N. apply plane_zero in E. apply vec2_ext; lra. Qed.

(** Three different points of a circle are not on a line. *)
Lemma circle_not_line c q p1 p2 p3 : sq c p1 = q -> sq c p2 = q -> sq c p3 = q -> p1 <> p2 -> p1 <> p3 -> p2 <> p3 ->
  (px p2 - px p1) * (py p3 - py p1) - (px p3 - px p1) * (py p2 - py p1) <> 0.
Proof.
  intros H1 H2 H3 N12 N13 N23 X. apply plane_neq in N12. apply plane_neq in N13. apply plane_neq in N23. unfold sq in *.
  set (dx := px p2 - px p1) in *. set (dy := py p2 - py p1) in *. set (ex := px p3 - px p1) in *. set (ey := py p3 - py p1) in *.
  set (x := px p1 - px c) in *. set (y := py p1 - py c) in *.
  assert (A : dx * dx + dy * dy + 2 * (dx * x + dy * y) = 0) by (unfold dx, dy, x, y in *; lra).
  assert (B : ex * ex + ey * ey + 2 * (ex * x + ey * y) = 0) by (unfold ex, ey, x, y in *; lra).
  assert (N : (ex - dx) * (ex - dx) + (ey - dy) * (ey - dy) <> 0).
  { intros Q. apply N23. unfold ex, ey, dx, dy in Q. lra. }
  clearbody dx dy ex ey x y. clear H1 H2 H3 N23.
  set (D := dx * dx + dy * dy) in *. set (t := ex * dx + ey * dy).
  assert (TX : ex * D = t * dx) by (unfold D, t; transitivity ((ex * dx + ey * dy) * dx - dy * (dx * ey - ex * dy)); [ ring | rewrite X; ring ]).
  assert (TY : ey * D = t * dy) by (unfold D, t; transitivity ((ex * dx + ey * dy) * dy + dx * (dx * ey - ex * dy)); [ ring | rewrite X; ring ]).
  (* D^2 B, with e D = t d *)
  assert (Q : t * (t - D) * D = 0).
  { transitivity ((t * dx) * (t * dx) + (t * dy) * (t * dy) + 2 * D * (t * dx * x + t * dy * y) - t * D * (D + 2 * (dx * x + dy * y))); [ unfold D; ring | ].
    rewrite A. rewrite <- TX, <- TY. transitivity (D * D * (ex * ex + ey * ey + 2 * (ex * x + ey * y))); [ ring | rewrite B; ring ]. }
  apply Rmult_integral in Q as [Q|Q]; [ | contradiction ]. apply Rmult_integral in Q as [Q|Q].
  - rewrite Q in TX, TY. apply N13. assert (ex = 0) by (apply (Rmult_eq_reg_r D); lra). assert (ey = 0) by (apply (Rmult_eq_reg_r D); lra).
    subst ex ey. ring.
  - assert (T : t = D) by lra. rewrite T in TX, TY. apply N. assert (ex = dx) by (apply (Rmult_eq_reg_r D); lra).
    assert (ey = dy) by (apply (Rmult_eq_reg_r D); lra). subst ex ey. ring.
Qed.
Lemma circle_same c r c' r' pts : 0 <= r -> 0 <= r' -> three_different pts ->
  (forall p, In p pts -> on_circle c r p) -> (forall p, In p pts -> on_circle c' r' p) -> c' = c /\ r' = r.
Proof.
  intros Hr Hr' (p1 & p2 & p3 & I1 & I2 & I3 & N12 & N13 & N23) H H'.
  assert (S : forall p, In p pts -> sq c p = r * r) by (intros; apply on_circle_sq; auto).
  assert (S' : forall p, In p pts -> sq c' p = r' * r') by (intros; apply on_circle_sq; auto).
  pose proof (circle_not_line c (r * r) p1 p2 p3 (S _ I1) (S _ I2) (S _ I3) N12 N13 N23) as NL.
  pose proof (S _ I1) as A1; pose proof (S _ I2) as A2; pose proof (S _ I3) as A3.
  pose proof (S' _ I1) as B1; pose proof (S' _ I2) as B2; pose proof (S' _ I3) as B3. unfold sq in A1, A2, A3, B1, B2, B3.
  set (u := px c' - px c). set (v := py c' - py c).
  assert (E1 : u * (px p2 - px p1) + v * (py p2 - py p1) = 0) by (unfold u, v; lra).
  assert (E2 : u * (px p3 - px p1) + v * (py p3 - py p1) = 0) by (unfold u, v; lra).
  assert (U : u = 0).
  { apply (Rmult_eq_reg_r ((px p2 - px p1) * (py p3 - py p1) - (px p3 - px p1) * (py p2 - py p1))); [ | exact NL ].
    transitivity ((u * (px p2 - px p1) + v * (py p2 - py p1)) * (py p3 - py p1) - (u * (px p3 - px p1) + v * (py p3 - py p1)) * (py p2 - py p1)); [ ring | ].
    rewrite E1, E2. ring. }
  assert (V : v = 0).
  { apply (Rmult_eq_reg_r ((px p2 - px p1) * (py p3 - py p1) - (px p3 - px p1) * (py p2 - py p1))); [ | exact NL ].
    transitivity ((u * (px p3 - px p1) + v * (py p3 - py p1)) * (px p2 - px p1) - (u * (px p2 - px p1) + v * (py p2 - py p1)) * (px p3 - px p1)); [ ring | ].
    rewrite E1, E2. ring. }
  assert (EC : c' = c) by (apply vec2_ext; unfold u, v in *; lra).
  split; [ exact EC | ]. rewrite <- (H _ I1), <- (H' _ I1), EC. reflexivity.
Qed.

Lemma circle_unique u solve cov p r centre radius : honest solve -> optimizeCircle u solve cov p = Ok r ->
  0 <= radius -> three_different (cf_observations p) -> (forall o, In o (cf_observations p) -> on_circle centre radius o) ->
  (cf_final_cost_per_obs r = 0 <-> V2 (cf_x_center r) (cf_y_center r) = centre /\ cf_radius r = radius).
Proof.
  intros Ho E Hr TD OC. pose proof (circle_nonneg _ _ _ _ _ E) as NN.
  destruct (circle_fields _ _ _ _ _ E) as (_ & x & s & Es & _ & Hx & Hy & HR & _ & Hf & _).
  rewrite Hf, per_obs_zero.
  2:{ destruct TD as (a & _ & _ & I & _). exact (nonempty_in _ _ I). }
  rewrite HR in *. split.
  - intros Z. rewrite Hx, Hy. apply (circle_same centre radius _ _ (cf_observations p)); auto.
    intros [a b] I. apply circle_zero. apply (honest_zero _ _ _ _ _ Ho Es Z (fun q => [circle_cost a b q])); [ | left; reflexivity ].
    apply in_map_iff. exists (V2 a b). auto.
  - intros [EC ER]. apply (honest_cost _ _ _ _ _ Ho Es). intros f If e He. apply in_map_iff in If as ([a b] & <- & I).
    destruct He as [<-|[]]. apply circle_zero. cbn [px py]. rewrite <- Hx, <- Hy, EC, ER. apply OC, I.
Qed.
(** Through two points go circles of any size. *)
Lemma circle_two_points a b size : a <> b ->
  exists centre radius, size <= radius /\ on_circle centre radius a /\ on_circle centre radius b.
Proof.
  intros N. apply plane_neq in N. set (x := px b - px a) in *. set (y := py b - py a) in *. set (D := x * x + y * y) in *.
  assert (PD : 0 < D) by (assert (0 <= D) by (unfold D; nra); lra).
  set (t := size / sqrt D). pose proof (sqrt_lt_R0 D PD) as PS. pose proof (sqrt_sqrt D (Rlt_le _ _ PD)) as SS.
  set (c := V2 ((px a + px b) / 2 - t * y) ((py a + py b) / 2 + t * x)).
  assert (Q : (px a - px c) * (px a - px c) + (py a - py c) * (py a - py c) = D / 4 + size * size).
  { replace (size * size) with (t * t * D) by (unfold t; rewrite <- SS at 3; field; lra).
    unfold c, D, x, y; cbn [px py]. field. }
  exists c, (dist2 a c). split; [ | split; [ reflexivity | ] ].
  - unfold dist2. rewrite Q. apply Rle_trans with (Rabs size); [ apply Rle_abs | ].
    rewrite <- sqrt_Rsqr_abs. apply sqrt_le_1_alt. unfold Rsqr. lra.
  - unfold on_circle, dist2. f_equal. unfold c, x, y; cbn [px py]. field.
Qed.
Lemma ex_circle_unique : exists u solve cov p r centre radius, honest solve /\ optimizeCircle u solve cov p = Ok r /\
  0 <= radius /\ three_different (cf_observations p) /\ (forall o, In o (cf_observations p) -> on_circle centre radius o) /\
  cf_final_cost_per_obs r = 0.
Proof.
  destruct (ex_circle_ok (fun _ _ => 0) sc_stay) as [r E].
  eexists _, sc_stay, _, _, r, (V2 0 0), 4. split; [ apply sc_stay_honest | split; [ exact E | split; [ lra | ] ] ].
  assert (TD : three_different [V2 4 0; V2 0 4; V2 (-4) 0]).
  { exists (V2 4 0), (V2 0 4), (V2 (-4) 0). cbn [In]. repeat split; auto; intros Q; injection Q; lra. }
  assert (OC : forall o, In o [V2 4 0; V2 0 4; V2 (-4) 0] -> on_circle (V2 0 0) 4 o).
  { intros o Io. unfold on_circle, dist2. 
    replace ((px o - px (V2 0 0)) * (px o - px (V2 0 0)) + (py o - py (V2 0 0)) * (py o - py (V2 0 0))) with (4 * 4).
    - apply sqrt_square. lra.
    - destruct Io as [<-|[<-|[<-|[]]]]; cbn [px py]; ring. }
  split; [ exact TD | split; [ exact OC | ] ].
  apply (circle_unique _ _ _ _ _ (V2 0 0) 4 sc_stay_honest E); auto; [ lra | ].
  destruct (circle_unmoved _ _ _ _ _ E sc_stay_stays) as (-> & -> & ->). auto.
Qed.
