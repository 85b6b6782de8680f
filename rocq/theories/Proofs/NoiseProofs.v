(** Proofs about the noise qualification. *)
From Coq Require Import Reals Lra Psatz Lia Arith List Permutation FunctionalExtensionality.
From Verif.Base Require Import Geom Outcome Matrix.
From Verif.Model Require Import Pose Covariance Solver HandEye Pnp Accumulator IntrinsicValidation NoiseQualification.
From Verif.Spec Require Import StatSpec ValidationSpec.
From Verif.Proofs Require Import GeomLemmas ListLemmas PnpProofs HandEyeProofs StatProofs IntrinsicValidationProofs.
Import ListNotations.
Local Open Scope R_scope.

(** ** The matrix *)
Lemma matrix_total l i j : quaternion_matrix l i j = total (map (fun q => qcoeff q i * qcoeff q j) l).
Proof.
  unfold quaternion_matrix.
  assert (G : forall (M : nat -> nat -> R), fold_left (fun M q => fun i j => M i j + qcoeff q i * qcoeff q j) l M i j =
              M i j + total (map (fun q => qcoeff q i * qcoeff q j) l)).
  { induction l as [ | q l IH]; intros M; cbn [fold_left map]; [ unfold total; cbn; ring | ].
    rewrite IH. unfold total. cbn [fold_right]. ring. }
  rewrite G. ring.
Qed.
Lemma qcoeff_neg q i : qcoeff (qneg q) i = - qcoeff q i.
Proof. unfold qcoeff, qneg. cbn [qw qx qy qz]. destruct i as [ | [ | [ | [ | i ] ] ] ]; cbn; try reflexivity. destruct i; cbn; ring. Qed.
Lemma same_rotation_outer a b i j : same_rotation a b -> qcoeff b i * qcoeff b j = qcoeff a i * qcoeff a j.
Proof. intros [-> | ->]; [ reflexivity | rewrite !qcoeff_neg; ring ]. Qed.
Lemma matrix_signs l l' : Forall2 same_rotation l l' -> quaternion_matrix l' = quaternion_matrix l.
Proof.
  intros H. apply functional_extensionality. intros i. apply functional_extensionality. intros j.
  rewrite !matrix_total. f_equal. induction H as [ | a b l l' Hab H IH]; cbn [map]; [ reflexivity | ].
  rewrite IH, (same_rotation_outer a b) by exact Hab. reflexivity.
Qed.
Lemma matrix_perm l l' : Permutation l l' -> quaternion_matrix l' = quaternion_matrix l.
Proof.
  intros H. apply functional_extensionality. intros i. apply functional_extensionality. intros j.
  rewrite !matrix_total. apply total_perm. apply Permutation_map. apply Permutation_sym, H.
Qed.
Lemma Rabs_opp w : Rabs (- w) = Rabs w.
Proof. apply Rabs_Ropp. Qed.
Lemma angular_same m a b : same_rotation a b -> angular_distance m b = angular_distance m a.
Proof.
  intros [-> | ->]; [ reflexivity | ]. unfold angular_distance.
  replace (qmul m (qconj (qneg a))) with (qneg (qmul m (qconj a))) by (destruct m, a; unfold qmul, qconj, qneg; cbn; f_equal; ring).
  set (d := qmul m (qconj a)). f_equal. f_equal.
  - unfold norm. f_equal. unfold qvec, qneg, dot. cbn. ring.
  - apply Rabs_Ropp.
Qed.
Lemma variance_total m l : fold_left (fun v q => v + angular_distance m q * angular_distance m q) l 0 =
  total (map (fun q => angular_distance m q * angular_distance m q) l).
Proof.
  assert (G : forall s, fold_left (fun v q => v + angular_distance m q * angular_distance m q) l s =
     s + total (map (fun q => angular_distance m q * angular_distance m q) l)).
  { induction l as [ | q l IH]; intros s; cbn [fold_left map]; [ unfold total; cbn; ring | ]. rewrite IH. unfold total. cbn [fold_right]. ring. }
  rewrite G. ring.
Qed.
Lemma stats_eq svd l l' : quaternion_matrix l' = quaternion_matrix l -> List.length l' = List.length l ->
  (forall m, total (map (fun q => angular_distance m q * angular_distance m q) l') =
             total (map (fun q => angular_distance m q * angular_distance m q) l)) ->
  computeQuaternionStats svd l' = computeQuaternionStats svd l.
Proof.
  intros M L V. unfold computeQuaternionStats, computeQuaternionMean. cbv zeta. rewrite M, L, !variance_total, V. reflexivity.
Qed.
Lemma same_length {A B} (R : A -> B -> Prop) l l' : Forall2 R l l' -> List.length l = List.length l'.
Proof. induction 1; cbn; congruence. Qed.
Lemma stats_signs svd l l' : Forall2 same_rotation l l' ->
  computeQuaternionMean svd l' = computeQuaternionMean svd l /\ computeQuaternionStats svd l' = computeQuaternionStats svd l.
Proof.
  intros H. split; [ unfold computeQuaternionMean; rewrite (matrix_signs _ _ H); reflexivity | ].
  apply stats_eq; [ apply matrix_signs, H | symmetry; exact (same_length _ _ _ H) | ].
  intros m. f_equal. induction H as [ | a b l l' Hab H IH]; cbn [map]; [ reflexivity | ].
  rewrite IH, (angular_same m a b Hab). reflexivity.
Qed.
Lemma stats_perm svd l l' : Permutation l l' ->
  computeQuaternionMean svd l' = computeQuaternionMean svd l /\ computeQuaternionStats svd l' = computeQuaternionStats svd l.
Proof.
  intros H. split; [ unfold computeQuaternionMean; rewrite (matrix_perm _ _ H); reflexivity | ].
  apply stats_eq; [ apply matrix_perm, H | symmetry; apply Permutation_length, H | ].
  intros m. apply total_perm. apply Permutation_map. apply Permutation_sym, H.
Qed.

(** ** What the mean is *)
Lemma quad_matrix l v : quad4 (quaternion_matrix l) v = total (map (fun q => qdot q v * qdot q v) l).
Proof.
  unfold quad4. cbv zeta. cbn [map nth]. unfold total at 1 2 3 4 5. cbn [fold_right]. rewrite !matrix_total.
  induction l as [ | q l IH].
  - unfold total; cbn; ring.
  - cbn [map]. unfold total in *. cbn [fold_right]. rewrite <- IH.
    change (qcoeff q 0) with (qx q). change (qcoeff q 1) with (qy q). change (qcoeff q 2) with (qz q). change (qcoeff q 3) with (qw q).
    unfold qdot. ring.
Qed.
Lemma mean_maximises svd l : dominant (quaternion_matrix l) (computeQuaternionMean svd l) ->
  let m := computeQuaternionMean svd l in
  qnorm2 m = 1 /\ forall v, qnorm2 v = 1 ->
    total (map (fun q => qdot q v * qdot q v) l) <= total (map (fun q => qdot q m * qdot q m) l).
Proof. intros [U D]. cbv zeta. split; [ exact U | ]. intros v Hv. specialize (D v Hv). rewrite !quad_matrix in D. exact D. Qed.
Lemma unit_dot_one a b : qnorm2 a = 1 -> qnorm2 b = 1 -> 1 <= qdot a b * qdot a b -> same_rotation a b.
Proof.
  intros Ha Hb H. set (d := qdot a b) in *.
  assert (Hd : d = 1 \/ d = -1).
  { assert (C : d * d <= 1).
    { assert (0 <= (1 - d) * (1 - d) + 0) by nra. unfold d, qdot, qnorm2 in *.
      destruct a as [a0 a1 a2 a3], b as [b0 b1 b2 b3]. cbn [qw qx qy qz] in *.
      assert (L : (a0 * b0 + a1 * b1 + a2 * b2 + a3 * b3) * (a0 * b0 + a1 * b1 + a2 * b2 + a3 * b3) +
         ((a0 * b1 - a1 * b0) * (a0 * b1 - a1 * b0) + (a0 * b2 - a2 * b0) * (a0 * b2 - a2 * b0) + (a0 * b3 - a3 * b0) * (a0 * b3 - a3 * b0) +
          (a1 * b2 - a2 * b1) * (a1 * b2 - a2 * b1) + (a1 * b3 - a3 * b1) * (a1 * b3 - a3 * b1) + (a2 * b3 - a3 * b2) * (a2 * b3 - a3 * b2)) =
         (a0 * a0 + a1 * a1 + a2 * a2 + a3 * a3) * (b0 * b0 + b1 * b1 + b2 * b2 + b3 * b3)) by ring.
      rewrite Ha, Hb in L.
      pose proof (Rle_0_sqr (a0 * b1 - a1 * b0)). pose proof (Rle_0_sqr (a0 * b2 - a2 * b0)). pose proof (Rle_0_sqr (a0 * b3 - a3 * b0)).
      pose proof (Rle_0_sqr (a1 * b2 - a2 * b1)). pose proof (Rle_0_sqr (a1 * b3 - a3 * b1)). pose proof (Rle_0_sqr (a2 * b3 - a3 * b2)).
      unfold Rsqr in *. lra. }
    assert (E : (d - 1) * (d + 1) = 0) by lra. apply Rmult_integral in E. destruct E; [ left | right ]; lra. }
  assert (S4 : forall w x y z, w * w + x * x + y * y + z * z = 0 -> w = 0 /\ x = 0 /\ y = 0 /\ z = 0).
  { intros w x y z E. repeat split; nra. }
  unfold d, qdot, qnorm2 in *. destruct a as [a0 a1 a2 a3], b as [b0 b1 b2 b3]. cbn [qw qx qy qz] in *.
  destruct Hd as [Hd | Hd].
  - left. destruct (S4 (b0 - a0) (b1 - a1) (b2 - a2) (b3 - a3)) as (? & ? & ? & ?); [ lra | ]. f_equal; lra.
  - right. destruct (S4 (b0 + a0) (b1 + a1) (b2 + a2) (b3 + a3)) as (? & ? & ? & ?); [ lra | ]. unfold qneg. cbn. f_equal; lra.
Qed.
Lemma total_const (l : list quat) c : total (map (fun _ => c) l) = INR (List.length l) * c.
Proof.
  induction l as [ | a l IH]; [ cbn; ring | ]. change (List.length (a :: l)) with (S (List.length l)). rewrite S_INR.
  unfold total in *. cbn [map fold_right]. rewrite IH. ring.
Qed.
Lemma mean_of_equal svd l q : dominant (quaternion_matrix l) (computeQuaternionMean svd l) ->
  l <> [] -> qnorm2 q = 1 -> Forall (same_rotation q) l -> same_rotation q (computeQuaternionMean svd l).
Proof.
  intros D N Hq F. destruct (mean_maximises svd l D) as [U M]. specialize (M q Hq). set (m := computeQuaternionMean svd l) in *.
  assert (T : forall v, total (map (fun x => qdot x v * qdot x v) l) = INR (List.length l) * (qdot q v * qdot q v)).
  { intros v. rewrite <- total_const. apply total_map_ext. intros a Ha. rewrite Forall_forall in F.
    destruct (F a Ha) as [-> | ->]; [ reflexivity | ]. unfold qdot, qneg. cbn. ring. }
  rewrite !T in M. assert (P : 0 < INR (List.length l)) by (apply lt_0_INR; destruct l; [ congruence | cbn; lia ]).
  apply Rmult_le_reg_l in M; [ | exact P ]. apply unit_dot_one; [ exact Hq | exact U | ].
  replace (qdot q q) with (qnorm2 q) in M by reflexivity. rewrite Hq in M. lra.
Qed.
Lemma norm_neg_qvec q : norm (qvec (qneg q)) = norm (qvec q).
Proof. unfold norm. f_equal. unfold qvec, qneg, dot. cbn. ring. Qed.
Lemma angular_self q : qnorm2 q = 1 -> angular_distance q q = 0.
Proof.
  intros H. unfold angular_distance. replace (qmul q (qconj q)) with (Q 1 0 0 0).
  - cbn [qw]. replace (norm (qvec (Q 1 0 0 0))) with 0.
    + rewrite Rabs_R1. unfold atan2. destruct (Rlt_dec 0 1); [ | lra ]. replace (0 / 1) with 0 by field. rewrite atan_0. ring.
    + unfold qvec. cbn. symmetry. apply norm_vzero.
  - rewrite <- H. destruct q. unfold qmul, qconj, qnorm2. cbn. f_equal; ring.
Qed.
Lemma angular_same_l a b q : same_rotation a b -> angular_distance b q = angular_distance a q.
Proof.
  intros [-> | ->]; [ reflexivity | ]. unfold angular_distance.
  replace (qmul (qneg a) (qconj q)) with (qneg (qmul a (qconj q))) by (destruct a, q; unfold qmul, qconj, qneg; cbn; f_equal; ring).
  rewrite norm_neg_qvec. cbn [qneg qw]. rewrite Rabs_Ropp. reflexivity.
Qed.
Lemma stats_of_equal svd l q : dominant (quaternion_matrix l) (computeQuaternionMean svd l) ->
  (2 <= List.length l)%nat -> qnorm2 q = 1 -> Forall (same_rotation q) l ->
  exists m, same_rotation q m /\ computeQuaternionStats svd l = Ok (QS m 0).
Proof.
  intros D L Hq F. assert (N : l <> []) by (intros ->; cbn in L; lia).
  pose proof (mean_of_equal svd l q D N Hq F) as S. exists (computeQuaternionMean svd l). split; [ exact S | ].
  unfold computeQuaternionStats. cbv zeta. rewrite variance_total.
  rewrite (total_map_ext _ (fun _ => 0)).
  - rewrite total_const, Rmult_0_r. destruct (List.length l) as [ | [ | n ] ]; [ lia | lia | ].
    unfold Rdiv. rewrite Rmult_0_l, sqrt_0. reflexivity.
  - intros a Ha. rewrite Forall_forall in F. rewrite (angular_same _ q a (F a Ha)), (angular_same_l q _ q S), angular_self by exact Hq. ring.
Qed.
Lemma stats_spec svd l : (2 <= List.length l)%nat ->
  computeQuaternionStats svd l =
  Ok (QS (computeQuaternionMean svd l)
     (sqrt (total (map (fun q => angular_distance (computeQuaternionMean svd l) q * angular_distance (computeQuaternionMean svd l) q) l)
            / INR (List.length l - 1)))).
Proof.
  intros L. unfold computeQuaternionStats. cbv zeta. rewrite variance_total.
  destruct (List.length l) as [ | [ | n ] ] eqn:E; [ lia | lia | ]. repeat f_equal. 
Qed.

(** ** The loop over the problems *)
Section Qualify.
Context {P : Type} (svd : svd_oracle) (optimize : nat -> P -> res pnp_result).
Let step := fun (st : nat * accumulator * accumulator * accumulator * list quat) prob =>
      let '(i, x_acc, y_acc, z_acc, orientations) := st in
      do result <- optimize i prob;
      let T := pnp_camera_to_target result in
      if pnp_converged result then
        Ok (S i, acc_push x_acc (vx (tr T)), acc_push y_acc (vy (tr T)), acc_push z_acc (vz (tr T)),
            (orientations ++ [quat_of_mat (lin T)])%list)
      else Ok (S i, x_acc, y_acc, z_acc, orientations).
Lemma loop_spec ps : forall i xa ya za os st, foldM step ps (i, xa, ya, za, os) = Ok st ->
  exists rs, List.length rs = List.length ps /\
    (forall j p r, nth_error ps j = Some p -> nth_error rs j = Some r -> optimize (i + j)%nat p = Ok r) /\
    st = ((i + List.length ps)%nat,
          fold_left acc_push (map (fun T => vx (tr T)) (solutions rs)) xa,
          fold_left acc_push (map (fun T => vy (tr T)) (solutions rs)) ya,
          fold_left acc_push (map (fun T => vz (tr T)) (solutions rs)) za,
          (os ++ map (fun T => quat_of_mat (lin T)) (solutions rs))%list).
Proof.
  induction ps as [ | p ps IH]; intros i xa ya za os st E; cbn [foldM] in E.
  - injection E as <-. exists []. split; [ reflexivity | ]. split; [ intros [ | j]; discriminate | ].
    cbn. rewrite Nat.add_0_r, app_nil_r. reflexivity.
  - unfold step in E at 1. destruct (optimize i p) as [r | | ] eqn:Er; cbn [bind] in E; try discriminate.
    destruct (pnp_converged r) eqn:Ec; cbn [bind] in E; destruct (IH _ _ _ _ _ _ E) as (rs & L & H & ->); exists (r :: rs);
      (split; [ cbn; lia | ]);
      (split; [ intros [ | j] p' r' Hp Hr; cbn in Hp, Hr;
          [ injection Hp as <-; injection Hr as <-; rewrite Nat.add_0_r; exact Er | rewrite <- Nat.add_succ_comm; exact (H j p' r' Hp Hr) ] | ]);
      unfold solutions; cbn [filter List.length]; rewrite Ec; cbn [map fold_left]; rewrite <- Nat.add_succ_comm, <- ?app_assoc; reflexivity.
Qed.
Lemma qualify_spec ps s : qualify svd optimize ps = Ok s ->
  exists rs, List.length rs = List.length ps /\
    (forall i p r, nth_error ps i = Some p -> nth_error rs i = Some r -> optimize i p = Ok r) /\
    let sol := solutions rs in
    let xs := map (fun T => vx (tr T)) sol in let ys := map (fun T => vy (tr T)) sol in let zs := map (fun T => vz (tr T)) sol in
    (2 <= List.length sol)%nat /\
    ps_mean (ns_p_stat s) = V3 (average xs) (average ys) (average zs) /\
    ps_stdev (ns_p_stat s) = V3 (std_dev xs) (std_dev ys) (std_dev zs) /\
    computeQuaternionStats svd (map (fun T => quat_of_mat (lin T)) sol) = Ok (ns_q_stat s).
Proof.
  unfold qualify, noise_loop. fold step. intros E. destruct (foldM step ps _) as [st | | ] eqn:El; cbn [bind] in E; try discriminate.
  destruct (loop_spec _ _ _ _ _ _ _ El) as (rs & L & H & ->). exists rs. split; [ exact L | ]. split; [ exact H | ].
  cbv zeta. cbn [app] in E. set (sol := solutions rs) in *.
  fold (pushed (map (fun T => vx (tr T)) sol)) in E. fold (pushed (map (fun T => vy (tr T)) sol)) in E. fold (pushed (map (fun T => vz (tr T)) sol)) in E.
  destruct sol as [ | T1 [ | T2 l ] ] eqn:Es; [ discriminate | discriminate | ]. rewrite <- Es in *.
  rewrite !pushed_mean in E by (rewrite Es; discriminate). cbn [bind] in E.
  destruct (computeQuaternionStats svd _) as [qs | | ] eqn:Eq; cbn [bind] in E; try discriminate. injection E as <-.
  split; [ rewrite Es; cbn; lia | ]. cbn [ns_p_stat ns_q_stat ps_mean ps_stdev].
  rewrite !pushed_std by (rewrite Es; discriminate). repeat split. 
Qed.
Lemma qualify_succeeds ps rs : List.length rs = List.length ps ->
  (forall i p r, nth_error ps i = Some p -> nth_error rs i = Some r -> optimize i p = Ok r) ->
  (2 <= List.length (solutions rs))%nat -> exists s, qualify svd optimize ps = Ok s.
Proof.
  intros L H N.
  assert (X : forall ps i xa ya za os rs, List.length rs = List.length ps ->
    (forall j p r, nth_error ps j = Some p -> nth_error rs j = Some r -> optimize (i + j)%nat p = Ok r) ->
    exists st, foldM step ps (i, xa, ya, za, os) = Ok st).
  { clear. induction ps as [ | p ps IH]; intros i xa ya za os rs L H; cbn [foldM]; [ eauto | ].
    destruct rs as [ | r rs]; [ discriminate | ]. unfold step at 1.
    pose proof (H 0%nat p r eq_refl eq_refl) as H0. rewrite Nat.add_0_r in H0. rewrite H0. cbn [bind].
    destruct (pnp_converged r); cbn [bind]; apply (IH _ _ _ _ _ rs); [ cbn in L; lia | | cbn in L; lia | ];
      intros j p' r' Hp Hr; rewrite Nat.add_succ_comm; exact (H (S j) p' r' Hp Hr). }
  destruct (X ps 0%nat acc_empty acc_empty acc_empty [] rs L H) as [st E]. unfold qualify, noise_loop. fold step. rewrite E. cbn [bind].
  destruct (loop_spec _ _ _ _ _ _ _ E) as (rs' & L' & H' & ->).
  assert (Er : rs' = rs).
  { assert (d : pnp_result) by (destruct rs as [ | r0 ?]; [ cbn in N; exfalso; lia | exact r0 ]).
    apply nth_ext with (d := d) (d' := d); [ congruence | ].
    intros n Hn. destruct (nth_error ps n) as [p | ] eqn:Ep.
    2:{ apply nth_error_None in Ep. lia. }
    pose proof (H' n p _ Ep (nth_error_nth' rs' d Hn)) as A. cbn [Nat.add] in A.
    assert (Hn' : (n < List.length rs)%nat) by lia.
    rewrite (H n p _ Ep (nth_error_nth' rs d Hn')) in A. injection A as A. symmetry. exact A. }
  subst rs'. cbn [app]. set (sol := solutions rs) in *. clearbody sol.
  fold (pushed (map (fun T => vx (tr T)) sol)). fold (pushed (map (fun T => vy (tr T)) sol)). fold (pushed (map (fun T => vz (tr T)) sol)).
  rewrite !pushed_mean by (destruct sol; [ cbn in N; lia | discriminate ]). cbn [bind].
  rewrite stats_spec by (rewrite map_length; exact N). cbn [bind]. eauto.
Qed.
End Qualify.

(** Two problems that converge, one that does not. *)
Definition ex_problems : list pnp_problem := [ex_pnp; ex_pnp; ex_pnp].
Definition ex_runs (i : nat) : pnp_run :=
  Run (fun _ _ => 0) (fun _ x => (x, Summary (Nat.ltb i 2) 0 0)) ex_cov_oracle.
Lemma ex_qualify svd : exists s, qualifyNoise2D svd ex_runs ex_problems = Ok s.
Proof.
  assert (F : forall i, exists r, optimizePnP (run_u (ex_runs i)) (run_solve (ex_runs i)) (run_cov (ex_runs i)) ex_pnp = Ok r /\ pnp_converged r = Nat.ltb i 2).
  { intros i. destruct (ex_pnp_ok (run_u (ex_runs i)) (run_solve (ex_runs i))) as [r E]. exists r. split; [ exact E | ].
    destruct (pnp_result2 ex_pnp) as (b & _ & X). destruct (X _ _ _ _ E) as (_ & x & s & Es & C & _). rewrite C.
    cbn [ex_runs run_solve] in Es. injection Es as <- <-. reflexivity. }
  destruct (F 0%nat) as (r0 & E0 & C0). destruct (F 1%nat) as (r1 & E1 & C1). destruct (F 2%nat) as (r2 & E2 & C2).
  unfold qualifyNoise2D. apply (qualify_succeeds svd _ ex_problems [r0; r1; r2]).
  - reflexivity.
  - intros [ | [ | [ | [ | i ] ] ] ] p r Hp Hr; cbn in Hp, Hr; try discriminate; injection Hp as <-; injection Hr as <-; assumption.
  - unfold solutions. cbn [filter]. rewrite C0, C1, C2. cbn. lia.
Qed.
Lemma ex_dominant : dominant (quaternion_matrix [Q 1 0 0 0; Q (-1) 0 0 0]) (Q 1 0 0 0).
Proof.
  split; [ unfold qnorm2; cbn; ring | ]. intros v Hv. rewrite !quad_matrix. unfold total, qdot. cbn. unfold qnorm2 in Hv.
  pose proof (Rle_0_sqr (qx v)). pose proof (Rle_0_sqr (qy v)). pose proof (Rle_0_sqr (qz v)). unfold Rsqr in *. nra.
Qed.
