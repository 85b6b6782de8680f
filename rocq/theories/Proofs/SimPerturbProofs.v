(** Perturbed poses and chains *)
From Coq Require Import Reals ZArith String List Lia Lra.
From Verif.Base Require Import Geom Outcome Matrix.
From Verif.Model Require Import Pose Solver HandEye DhChain Kinematic Covariance Simulation.
From Verif.Spec Require Import SimulationSpec.
From Verif.Proofs Require Import GeomLemmas DhProofs SimPoseProofs.
Import ListNotations.
Local Open Scope R_scope.

Lemma zero_axis axis : dot axis axis = 0 -> axis = vzero.
Proof. apply dot_zero. Qed.
Lemma no_turn u v : aa_matrix 0 u = aa_matrix 0 v.
Proof. unfold aa_matrix. rewrite sin_0, cos_0. f_equal; ring. Qed.
Lemma normalized_parallel v : 0 < dot v v -> parallel v (normalized v).
Proof.
  intros H. unfold normalized. destruct (Rlt_dec 0 (dot v v)); [ | contradiction ].
  destruct v as [a b c]. unfold parallel, cross, vscale, vzero; cbn [vx vy vz]; f_equal; ring.
Qed.
Lemma normalized_one v : 0 < dot v v -> dot (normalized v) (normalized v) = 1.
Proof.
  intros H. unfold normalized. destruct (Rlt_dec 0 (dot v v)); [ | contradiction ].
  assert (norm v * norm v = dot v v) as E by (apply sqrt_sqrt; lra).
  assert (norm v <> 0) by (intros Z; rewrite Z in E; lra).
  transitivity (/ norm v * / norm v * dot v v); [ unfold dot, vscale; cbn [vx vy vz]; ring | ]. rewrite <- E. field. assumption.
Qed.
Lemma dot_pos v : dot v v <> 0 -> 0 < dot v v.
Proof. intros H. assert (0 <= dot v v) by (unfold dot; nra). lra. Qed.

Section pose.
  Context {G : Type} (seeded : nat -> G) (uniform : R -> R -> G -> R * G) (o1 o2 : eval_order) (seed : nat).
  Hypothesis HU : in_bounds uniform.
  Hypothesis HS : stretches uniform.
  Definition unit_draw (g : G) : R := fst (uniform 0 1 g).
  Definition next (g : G) : G := snd (uniform 0 1 g).
  Definition w1 : R := -1 + 2 * unit_draw (seeded seed).
  Definition w2 : R := -1 + 2 * unit_draw (next (seeded seed)).
  Definition w3 : R := -1 + 2 * unit_draw (next (next (seeded seed))).
  Lemma uniform_sym b g : uniform (- b) b g = (b * (-1 + 2 * unit_draw g), next g).
  Proof. rewrite HS. unfold unit_draw, next. f_equal. ring. Qed.
  Lemma arrange_scale o s a b c : arrange o (s * a) (s * b) (s * c) = vscale s (arrange o a b c).
  Proof. destruct o; reflexivity. Qed.
  Definition move (s a : R) : iso :=
    iso_mul (iso_trans (vscale s (arrange o1 w1 w2 w3))) (iso_rot (aa_matrix (a * w1) (normalized (arrange o2 w1 w2 w3)))).
  Lemma perturb_move pose s a : 0 <= s -> 0 <= a -> perturbPose seeded uniform o1 o2 seed pose s a = Ok (iso_mul pose (move s a)).
  Proof.
    intros Hs Ha. unfold perturbPose. destruct (Rle_dec (- s) s); [ | lra ]. destruct (Rle_dec (- a) a); [ | lra ].
    cbv zeta. replace (uniform (-1) 1) with (uniform (- (1)) 1) by (f_equal; lra). repeat rewrite uniform_sym. f_equal.
    fold w1 w2 w3. rewrite arrange_scale. rewrite !Rmult_1_l. rewrite iso_mul_assoc. reflexivity.
  Qed.
  Lemma perturb_undefined pose s a : s < 0 \/ a < 0 -> perturbPose seeded uniform o1 o2 seed pose s a = UB.
  Proof.
    intros H. unfold perturbPose. destruct (Rle_dec (- s) s); [ | reflexivity ]. destruct (Rle_dec (- a) a); [ | reflexivity ]. lra.
  Qed.
  Lemma unit_draw_range g : 0 <= unit_draw g <= 1.
  Proof. apply HU. lra. Qed.
  Lemma w_range : within 1 w1 /\ within 1 w2 /\ within 1 w3.
  Proof.
    unfold within, w1, w2, w3. pose proof (unit_draw_range (seeded seed)). pose proof (unit_draw_range (next (seeded seed))).
    pose proof (unit_draw_range (next (next (seeded seed)))). lra.
  Qed.
  Lemma within_scale s w : 0 <= s -> within 1 w -> within s (s * w).
  Proof. unfold within. intros; nra. Qed.
  Lemma arranged_zero o : dot (arrange o w1 w2 w3) (arrange o w1 w2 w3) = 0 -> w1 = 0.
  Proof. intros H. apply dot_zero in H. destruct o; injection H; intros; assumption. Qed.
  (** The turn always has an axis *)
  Lemma turn_axis a : exists axis, aa_matrix (a * w1) (normalized (arrange o2 w1 w2 w3)) = aa_matrix (a * w1) axis /\
    dot axis axis = 1 /\ (dot (arrange o2 w1 w2 w3) (arrange o2 w1 w2 w3) <> 0 -> axis = normalized (arrange o2 w1 w2 w3)).
  Proof.
    destruct (Req_dec (dot (arrange o2 w1 w2 w3) (arrange o2 w1 w2 w3)) 0) as [Z | N].
    - exists unitX. split; [ rewrite (arranged_zero _ Z), Rmult_0_r; apply no_turn | ]. split; [ unfold unitX, dot; cbn; ring | intros N; contradiction ].
    - eexists. split; [ reflexivity | ]. split; [ apply normalized_one, dot_pos; exact N | reflexivity ].
  Qed.
  Lemma move_small s a : 0 <= s -> 0 <= a -> small_move s a (move s a).
  Proof.
    intros Hs Ha. destruct (turn_axis a) as (axis & E & U & _). destruct w_range as (W1 & W2 & W3).
    exists (vscale s (arrange o1 w1 w2 w3)), (a * w1), axis. unfold move. rewrite E. split; [ reflexivity | ]. split; [ exact U | ].
    destruct o1; cbn [arrange vscale vx vy vz]; repeat (split; [ apply within_scale; assumption | ]); apply within_scale; assumption.
  Qed.
  Lemma perturb_same s a : 0 <= s -> 0 <= a ->
    exists D, small_move s a D /\ forall pose, perturbPose seeded uniform o1 o2 seed pose s a = Ok (iso_mul pose D).
  Proof. intros Hs Ha. exists (move s a). split; [ apply move_small; assumption | ]. intros pose. apply perturb_move; assumption. Qed.
  Lemma move_screw s a : o1 = o2 -> screw (move s a).
  Proof.
    intros E. destruct (turn_axis a) as (axis & E' & U & P). exists (vscale s (arrange o1 w1 w2 w3)), (a * w1), axis.
    unfold move. rewrite E'. split; [ reflexivity | ]. split; [ exact U | ].
    destruct (Req_dec (dot (arrange o2 w1 w2 w3) (arrange o2 w1 w2 w3)) 0) as [Z | N].
    - rewrite E, (dot_zero _ Z). unfold parallel, cross, vscale, vzero; cbn [vx vy vz]; f_equal; ring.
    - rewrite (P N), E. pose proof (normalized_parallel _ (dot_pos _ N)) as Q. clear P. unfold parallel in *.
      destruct (arrange o2 w1 w2 w3) as [x y z]. destruct (normalized _) as [x' y' z']. unfold cross, vscale, vzero in *; cbn [vx vy vz] in *.
      injection Q as Q1 Q2 Q3. f_equal; [ rewrite <- (Rmult_0_r s), <- Q1 | rewrite <- (Rmult_0_r s), <- Q2 | rewrite <- (Rmult_0_r s), <- Q3 ]; ring.
  Qed.
End pose.
Lemma perturb_screw {G} (seeded : nat -> G) uniform o seed pose s a P : in_bounds uniform -> stretches uniform -> rigid pose ->
  perturbPose seeded uniform o o seed pose s a = Ok P -> screw (iso_mul (iso_inv pose) P).
Proof.
  intros HU HS R E.
  assert (0 <= s /\ 0 <= a) as [Hs Ha].
  { split; apply Rnot_lt_le; intros N; rewrite perturb_undefined in E by (assumption || (left; assumption) || (right; assumption)); discriminate. }
  rewrite perturb_move in E by assumption. injection E as <-. rewrite <- iso_mul_assoc, iso_inv_l, iso_mul_id_l by exact R.
  apply move_screw; auto.
Qed.
Lemma small_rigid s a D : small_move s a D -> rigid D.
Proof.
  intros (t & angle & axis & -> & U & _). apply rigid_mul; [ exact rigid_id | ]. exact (aa_matrix_rot angle axis U).
Qed.
Lemma small_none D : small_move 0 0 D -> D = iso_id.
Proof.
  intros (t & angle & axis & -> & U & H1 & H2 & H3 & H4). unfold within in *.
  replace angle with 0 by lra. replace t with vzero by (destruct t as [x y z]; cbn [vx vy vz] in *; unfold vzero; f_equal; lra).
  unfold aa_matrix. rewrite sin_0, cos_0. unfold iso_mul, iso_trans, iso_rot, iso_id, mmul, mvec, vadd, vzero, I3; cbn [lin tr m00 m01 m02 m10 m11 m12 m20 m21 m22 vx vy vz].
  f_equal; f_equal; ring.
Qed.

(** ** Chains *)

Section columns.
  Context {N : Type} (normal : R -> N -> R * N) (stddev : R) (dh : matrix).
  Notation nxt := (fun s => snd (normal stddev s)).
  Notation step j := (fun '(out, s) i => let '(v, s) := normal stddev s in (set_ent out i j (ent dh i j + v), s)).
  Lemma one_column j m : forall a out s, exists out',
    fold_left (step j) (seq a m) (out, s) = (out', Nat.iter m nxt s) /\ rows out' = rows out /\ cols out' = cols out /\
    (forall i, (a <= i < a + m)%nat -> ent out' i j = ent dh i j + draw_no normal stddev s (i - a)) /\
    (forall i k, k <> j -> ent out' i k = ent out i k) /\ (forall i, ~ (a <= i < a + m)%nat -> ent out' i j = ent out i j).
  Proof.
    induction m as [ | m IH]; intros a out s.
    - exists out. split; [ reflexivity | ]. split; [ reflexivity | ]. split; [ reflexivity | ]. split; [ intros; lia | ]. split; reflexivity.
    - cbn [seq fold_left]. destruct (normal stddev s) as [v s'] eqn:E.
      destruct (IH (S a) (set_ent out a j (ent dh a j + v)) s') as (out' & F & R & C & H1 & H2 & H3). exists out'. rewrite F.
      assert (s' = nxt s) as -> by (rewrite E; reflexivity).
      split; [ f_equal; apply (iter_inside nxt m s) | ]. split; [ exact R | ]. split; [ exact C | ]. split; [ | split ].
      + intros i Hi. destruct (Nat.eq_dec i a) as [-> | Ne].
        * rewrite H3 by lia. unfold set_ent; cbn [ent]. rewrite !Nat.eqb_refl, Nat.sub_diag. cbn [andb]. unfold draw_no. cbn. rewrite E. reflexivity.
        * rewrite H1 by lia. replace (i - a)%nat with (S (i - S a)) by lia. f_equal. unfold draw_no. f_equal. f_equal. apply (iter_inside nxt (i - S a) s).
      + intros i k Hk. rewrite H2 by exact Hk. unfold set_ent; cbn [ent]. destruct (Nat.eqb_spec k j); [ contradiction | ]. rewrite Bool.andb_false_r. reflexivity.
      + intros i Hi. rewrite H3 by lia. unfold set_ent; cbn [ent]. destruct (Nat.eqb_spec i a); [ lia | ]. reflexivity.
  Qed.
  Lemma iter_add {A} (f : A -> A) a b x : Nat.iter a f (Nat.iter b f x) = Nat.iter (a + b) f x.
  Proof. induction a as [ | a IH]; [ reflexivity | ]. change (f (Nat.iter a f (Nat.iter b f x)) = f (Nat.iter (a + b) f x)). f_equal. exact IH. Qed.
  Lemma all_columns n k : forall b out s, rows dh = n -> exists out',
    fold_left (fun '(out, s) j => fold_left (step j) (seq 0 (rows dh)) (out, s)) (seq b k) (out, s) = (out', Nat.iter (k * n) nxt s) /\
    rows out' = rows out /\ cols out' = cols out /\
    (forall i j, (i < n)%nat -> (b <= j < b + k)%nat -> ent out' i j = ent dh i j + draw_no normal stddev s ((j - b) * n + i)) /\
    (forall i j, (j < b)%nat -> ent out' i j = ent out i j).
  Proof.
    induction k as [ | k IH]; intros b out s Hn.
    - exists out. split; [ reflexivity | ]. split; [ reflexivity | ]. split; [ reflexivity | ]. split; [ intros; lia | reflexivity ].
    - cbn [seq fold_left]. destruct (one_column b (rows dh) 0 out s) as (o1 & F1 & R1 & C1 & H1 & H2 & _). rewrite F1, Hn.
      destruct (IH (S b) o1 (Nat.iter n nxt s) Hn) as (out' & F & R & C & K1 & K2). exists out'. rewrite Hn in F.
      split; [ rewrite F, iter_add; f_equal; f_equal; lia | ]. split; [ congruence | ]. split; [ congruence | ]. split.
      + intros i j Hi Hj. destruct (Nat.eq_dec j b) as [-> | Ne].
        * rewrite K2 by lia. rewrite H1 by lia. rewrite Nat.sub_diag, Nat.sub_0_r. reflexivity.
        * rewrite K1 by lia. f_equal. unfold draw_no. rewrite iter_add. do 3 f_equal. nia.
      + intros i j Hj. rewrite K2 by lia. apply H2. lia.
  Qed.
End columns.
Lemma perturb_chain {N} (start : nat -> N) normal u seed c stddev : 0 < stddev ->
  exists c', perturbDHChain start normal u seed c stddev = Ok c' /\ dof c' = dof c /\ base_offset c' = base_offset c /\
    forall i t, nth_error (transforms c) i = Some t -> exists t', nth_error (transforms c') i = Some t' /\
      jtype t' = jtype t /\
      (forall j, (j < 4)%nat -> coef4 (params t') j = coef4 (params t) j + draw_no normal stddev (start seed) (j * dof c + i)) /\
      jname t' = String.append "j" (to_string (i + 1)) /\ jmin t' = - PI /\ jmax t' = PI.
Proof.
  intros H. unfold perturbDHChain. destruct (Rlt_dec 0 stddev); [ | contradiction ].
  destruct (dh_table u c) as (R & C & E).
  destruct (all_columns normal stddev (getDHTable u c) (dof c) 4 0 (getDHTable u c) (start seed) R) as (out & F & R' & _ & K & _).
  rewrite F. rewrite getJointTypes_map, map_length.
  set (f := fun i => do row <- row4 out i; do jt <- idx (map jtype (transforms c)) i; Ok (mk_dh_transform row jt (String.append "j" (to_string (i + 1))) seed)).
  rewrite (TargetProofs.foldM_ext _ (fun s a => do b <- f a; Ok (s ++ [b])%list)).
  2:{ intros s i _. unfold f. destruct (row4 out i); [ | reflexivity | reflexivity ]. cbn [bind]. destruct (idx _ i); reflexivity. }
  rewrite TargetProofs.foldM_push.
  assert (forall i t, nth_error (transforms c) i = Some t -> f i = Ok (mk_dh_transform (V4 (ent out i 0) (ent out i 1) (ent out i 2) (ent out i 3)) (jtype t) (String.append "j" (to_string (i + 1))) seed)) as Hf.
  { intros i t Hi. unfold f, row4. rewrite R', R. pose proof (nth_error_Some (transforms c) i) as Q. destruct (Nat.ltb_spec i (dof c)) as [L | L].
    - cbn [bind]. unfold idx. rewrite nth_error_map, Hi. reflexivity.
    - exfalso. assert (i < length (transforms c))%nat by (apply Q; congruence). unfold dof in L. lia. }
  assert (forall ts a, (forall i t, nth_error ts i = Some t -> nth_error (transforms c) (a + i) = Some t) ->
    exists ts', mapM f (seq a (length ts)) = Ok ts' /\ length ts' = length ts /\
      forall i t, nth_error ts i = Some t -> exists t', nth_error ts' i = Some t' /\ f (a + i)%nat = Ok t') as M.
  { induction ts as [ | t ts IH]; intros a Ha.
    - exists []. split; [ reflexivity | ]. split; [ reflexivity | ]. intros [ | i] t Hi; discriminate.
    - destruct (IH (S a)) as (ts' & Em & L & Q). { intros i x Hx. specialize (Ha (S i) x Hx). rewrite <- Ha. f_equal. lia. }
      pose proof (Ha 0%nat t eq_refl) as H0. rewrite Nat.add_0_r in H0. cbn [seq length mapM]. rewrite (Hf a t H0). cbn [bind]. rewrite Em. cbn [bind].
      eexists. split; [ reflexivity | ]. split; [ cbn; congruence | ]. intros [ | i] x Hx.
      + eexists. split; [ reflexivity | ]. rewrite Nat.add_0_r. apply (Hf a t H0).
      + destruct (Q i x Hx) as (t' & A & B). exists t'. split; [ exact A | ]. rewrite <- B. f_equal. lia. }
  destruct (M (transforms c) 0%nat) as (ts' & Em & L & Q); [ auto | ]. rewrite Em. cbn [bind app].
  eexists. split; [ reflexivity | ]. split; [ exact L | ]. split; [ reflexivity | ].
  intros i t Hi. destruct (Q i t Hi) as (t' & A & B). cbn in B. rewrite (Hf i t Hi) in B. injection B as <-.
  eexists. split; [ exact A | ]. split; [ reflexivity | ]. split; [ | repeat split ].
  assert (i < dof c)%nat as Li by (apply nth_error_Some; congruence).
  intros j Hj. transitivity (ent out i j).
  - destruct j as [ | [ | [ | [ | j]]]]; try lia; reflexivity.
  - rewrite K by lia. rewrite (E i j t Hi Hj), Nat.sub_0_r. reflexivity.
Qed.
Lemma perturb_chain_undefined {N} (start : nat -> N) normal u seed c stddev : ~ 0 < stddev ->
  perturbDHChain start normal u seed c stddev = UB.
Proof. intros H. unfold perturbDHChain. destruct (Rlt_dec 0 stddev); [ contradiction | reflexivity ]. Qed.
Lemma perturb_forgets : forall N (start : nat -> N) normal u seed stddev, 0 < stddev ->
  exists c c' t t', perturbDHChain start normal u seed c stddev = Ok c' /\ nth_error (transforms c) 1 = Some t /\ nth_error (transforms c') 1 = Some t' /\
    jmin t = -2 * PI /\ jmax t = 2 * PI /\ jmin t' <> jmin t /\ jmax t' <> jmax t.
Proof.
  intros N start normal u seed stddev H. destruct (perturb_chain start normal u seed (createTwoAxisPositioner seed) stddev H) as (c' & E & _ & _ & Q).
  destruct (Q 1%nat _ eq_refl) as (t' & A & _ & _ & _ & B1 & B2). exists (createTwoAxisPositioner seed), c'. do 2 eexists.
  split; [ exact E | ]. split; [ reflexivity | ]. split; [ exact A | ]. pose proof PI_RGT_0. cbn [jmin jmax]. rewrite B1, B2.
  split; [ reflexivity | ]. split; [ reflexivity | ]. split; lra.
Qed.
Lemma perturb_renames : forall N (start : nat -> N) normal u seed stddev, 0 < stddev ->
  exists c c' t t', perturbDHChain start normal u seed c stddev = Ok c' /\ nth_error (transforms c) 0 = Some t /\ nth_error (transforms c') 0 = Some t' /\
    jname t' <> jname t.
Proof.
  intros N start normal u seed stddev H. set (c := DHChain [mk_dh_transform (V4 0 0 0 0) REVOLUTE "axis" 0] iso_id).
  destruct (perturb_chain start normal u seed c stddev H) as (c' & E & _ & _ & Q).
  destruct (Q 0%nat _ eq_refl) as (t' & A & _ & _ & B & _). exists c, c'. do 2 eexists. split; [ exact E | ]. split; [ reflexivity | ]. split; [ exact A | ].
  rewrite B. discriminate.
Qed.
Lemma ex_noisy_robot : exists c', perturbDHChain (fun n => n) (fun s n => (s, S n)) (fun _ _ => 0) 1 (createABBIRB2400 1) (1 / 1000) = Ok c' /\
  dof c' = 6%nat.
Proof.
  destruct (perturb_chain (fun n => n) (fun (s : R) (n : nat) => (s, S n)) (fun _ _ => 0) 1 (createABBIRB2400 1) (1 / 1000)) as (c' & E & D & _); [ lra | ].
  exists c'. split; [ exact E | rewrite D; reflexivity ].
Qed.
