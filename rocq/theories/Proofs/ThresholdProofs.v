(** C99: the thresholds of the circle detector in float and double. *)
From Coq Require Import ZArith Reals Lra Psatz Lia Bool List.
From Flocq Require Import Core BinarySingleNaN.
From Verif.Base Require Import Float.
From Verif.Model Require Import FloatCode.
From Verif.Spec Require Import FloatSpec.
From Verif.Proofs Require Import FloatLemmas.
Import ListNotations.
Local Open Scope R_scope.

Lemma two_to_double k : two_to k + two_to k = two_to (k + 1).
Proof. unfold two_to. rewrite bpow_plus. change (bpow radix2 1) with 2. ring. Qed.

Lemma bound_sum u eta L r Z a b c : 0 < u <= 1 / 1000 -> 0 < eta -> 0 <= L -> 0 <= r -> Z <= r * (1 + u) + eta ->
  a <= u * (L + Z) + eta -> b <= u * r + eta -> c <= (u + eta) * r -> a + (b + c) <= 4 * u * (L + r) + 2 * (2 * eta) * (1 + r).
Proof.
  intros U E HL R HZ A B C. assert (u * Z <= u * (r * (1 + u) + eta)) by (apply Rmult_le_compat_l; lra).
  assert (0 <= u * r) by (apply Rmult_le_pos; lra). assert (u * r * u <= u * r * 1) by (apply Rmult_le_compat_l; lra).
  assert (u * eta <= 1 * eta) by (apply Rmult_le_compat_r; lra). assert (0 <= u * L) by (apply Rmult_le_pos; lra).
  assert (0 <= eta * r) by (apply Rmult_le_pos; lra). nra.
Qed.
Section Steps.
  Variable p : dthresholds.
  Hypothesis HB : threshold_bounds p.
  Let lo := fval (d_minThreshold p).
  Let hi := fval (d_maxThreshold p).
  Let r := rnd32 (hi - lo).

  Lemma range_ok : dfin (widen (fsub (d_maxThreshold p) (d_minThreshold p))) = true /\
    dval (widen (fsub (d_maxThreshold p) (d_minThreshold p))) = r.
  Proof.
    destruct HB as (F1 & F2 & O & B1 & B2). destruct (fsub_ok (d_maxThreshold p) (d_minThreshold p) 101 ltac:(lia) F2 F1) as [F V].
    { change (bpow radix2 101) with (two_to (100 + 1)). rewrite <- two_to_double. eapply Rle_trans; [ apply Rabs_triang | ].
      rewrite Rabs_Ropp. apply Rplus_le_compat; assumption. }
    destruct (widen_ok _ F) as [F' V']. split; [ exact F' | ]. rewrite V'. exact V.
  Qed.
  Lemma range_pos : 0 <= r.
  Proof. destruct HB as (_ & _ & O & _). unfold r. rewrite <- rnd32_0. apply rnd32_le. unfold hi, lo. lra. Qed.
  Lemma range_big : r <= two_to 101.
  Proof.
    destruct HB as (F1 & F2 & O & B1 & B2). unfold r. replace (two_to 101) with (rnd32 (two_to 101)).
    - apply rnd32_le. change 101%Z with (100 + 1)%Z. rewrite <- two_to_double. apply Rabs_le_inv in B1, B2. unfold hi, lo. lra.
    - apply round_generic; [ typeclasses eauto | ]. apply generic_format_bpow. reflexivity || (unfold SpecFloat.fexp, SpecFloat.emin; lia).
  Qed.
  Lemma range_near : Rabs (r - (hi - lo)) <= unit32 * (hi - lo).
  Proof.
    destruct HB as (_ & _ & O & _). destruct (rnd32_sub (d_maxThreshold p) (d_minThreshold p)) as (d & D & E).
    unfold r, hi, lo. rewrite E. replace (_ * (1 + d) - _) with (d * (fval (d_maxThreshold p) - fval (d_minThreshold p))) by ring.
    rewrite Rabs_mult, (Rabs_pos_eq (_ - _)) by lra. apply Rmult_le_compat_r; [ lra | exact D ].
  Qed.
  Lemma lo_ok : dfin (widen (d_minThreshold p)) = true /\ dval (widen (d_minThreshold p)) = lo.
  Proof. apply widen_ok, HB. Qed.

  Hypothesis HN : many_thresholds p.
  Let n := d_nThresholds p.
  Lemma top_ok : dval (dint (Z.of_nat (n - 1))) = INR (n - 1) /\ 1 <= INR (n - 1).
  Proof.
    unfold many_thresholds in HN. fold n in HN. destruct (dint_val (Z.of_nat (n - 1))) as [V _]; [ lia | ]. rewrite V, INR_IZR_INZ. split; [ reflexivity | ].
    apply (IZR_le 1). lia.
  Qed.
  Lemma quot_ok i : (i < n)%nat -> 0 <= INR i / INR (n - 1) <= 1.
  Proof.
    intros H. destruct top_ok as [_ T]. pose proof (pos_INR i). assert (INR i <= INR (n - 1)) by (apply le_INR; lia). split.
    - apply Rmult_le_pos; [ assumption | left; apply Rinv_0_lt_compat; lra ].
    - apply Rmult_le_reg_r with (INR (n - 1)); [ lra | ]. unfold Rdiv. rewrite Rmult_assoc, Rinv_l by lra. lra.
  Qed.
  Let q i := rnd (INR i / INR (n - 1)).
  Lemma rnd_1 : rnd 1 = 1.
  Proof. apply (rnd_bpow 0). lia. Qed.
  Lemma q_range i : (i < n)%nat -> 0 <= q i <= 1.
  Proof. intros H. destruct (quot_ok i H). split; [ apply rnd_pos; assumption | unfold q; rewrite <- rnd_1; apply rnd_le; assumption ]. Qed.

  Lemma step_ok i : (i < n)%nat -> dfin (threshold64 p i) = true /\ dval (threshold64 p i) = rnd (lo + rnd (q i * r)).
  Proof.
    intros H. unfold threshold64. fold n. unfold many_thresholds in HN. fold n in HN.
    destruct (Nat.ltb_spec n 2) as [L | _]; [ lia | ].
    destruct range_ok as [F1 V1]. destruct lo_ok as [F2 V2]. destruct top_ok as [V3 T3].
    destruct (dint_val (Z.of_nat i)) as [V4 F4]; [ lia | ]. rewrite <- INR_IZR_INZ in V4. pose proof (quot_ok i H) as Q.
    destruct (ddiv_ok (dint (Z.of_nat i)) (dint (Z.of_nat (n - 1))) 0 ltac:(lia) F4) as [F5 V5].
    { rewrite V3. lra. }
    { rewrite V4, V3. change (bpow radix2 0) with 1. rewrite Rabs_pos_eq; apply Q. }
    rewrite V4, V3 in V5. fold (q i) in V5. pose proof (q_range i H) as Q'. pose proof range_pos as P. pose proof range_big as B.
    assert (M : 0 <= q i * r <= two_to 101) by (split; nra).
    destruct (dmul_ok (ddiv (dint (Z.of_nat i)) (dint (Z.of_nat (n - 1)))) (widen (fsub (d_maxThreshold p) (d_minThreshold p))) 101 ltac:(lia) F5 F1) as [F6 V6].
    { rewrite V5, V1. rewrite Rabs_pos_eq; apply M. }
    rewrite V5, V1 in V6.
    destruct (dadd_ok (widen (d_minThreshold p)) _ 102 ltac:(lia) F2 F6) as [F7 V7].
    { rewrite V2, V6. change (bpow radix2 102) with (two_to (101 + 1)). rewrite <- two_to_double. eapply Rle_trans; [ apply Rabs_triang | ].
      apply Rplus_le_compat.
      - destruct HB as (_ & _ & _ & B1 & _). eapply Rle_trans; [ exact B1 | apply bpow_le; lia ].
      - apply (rnd_abs _ 101); [ lia | ]. rewrite Rabs_pos_eq; apply M. }
    split; [ exact F7 | ]. rewrite V7, V2, V6. reflexivity.
  Qed.

  Lemma first_step : dval (threshold64 p 0) = lo.
  Proof.
    unfold many_thresholds in HN. fold n in HN. destruct (step_ok 0 ltac:(lia)) as [_ ->]. unfold q. cbn [INR]. replace (0 / INR (n - 1)) with 0 by (unfold Rdiv; ring).
    rewrite rnd_0, Rmult_0_l, rnd_0, Rplus_0_r. destruct lo_ok as [_ <-]. apply rnd_val.
  Qed.
  Lemma steps_rise i j : (i <= j < n)%nat -> lo <= dval (threshold64 p i) <= dval (threshold64 p j).
  Proof.
    intros H. destruct (step_ok i ltac:(lia)) as [_ ->]. destruct (step_ok j ltac:(lia)) as [_ ->].
    pose proof (q_range i ltac:(lia)) as Qi. pose proof range_pos as P. split.
    - destruct lo_ok as [_ E]. rewrite <- E at 1. rewrite <- (rnd_val (widen (d_minThreshold p))), E at 1. apply rnd_le.
      pose proof (rnd_pos (q i * r) ltac:(apply Rmult_le_pos; [ apply Qi | exact P ])). lra.
    - apply rnd_le, Rplus_le_compat_l, rnd_le, Rmult_le_compat_r; [ exact P | ]. apply rnd_le. destruct top_ok as [_ T].
      apply Rmult_le_compat_r; [ left; apply Rinv_0_lt_compat; lra | apply le_INR; lia ].
  Qed.
  Lemma last_step : dval (threshold64 p (n - 1)) = rnd (lo + r).
  Proof.
    unfold many_thresholds in HN. fold n in HN. destruct (step_ok (n - 1) ltac:(lia)) as [_ ->]. unfold q. destruct top_ok as [_ T].
    replace (INR (n - 1) / INR (n - 1)) with 1 by (field; lra). rewrite rnd_1, Rmult_1_l. destruct range_ok as [_ <-]. rewrite rnd_val. reflexivity.
  Qed.
  Lemma exact_range : (exists w : f32, fval w = hi - lo) -> r = hi - lo.
  Proof. intros [w E]. unfold r. rewrite <- E. apply rnd32_val. Qed.
  Lemma last_exact : (exists w : f32, fval w = hi - lo) -> dval (threshold64 p (n - 1)) = hi.
  Proof.
    intros E. rewrite last_step, exact_range by exact E. replace (lo + (hi - lo)) with hi by ring.
    destruct HB as (_ & F & _). destruct (widen_ok _ F) as [_ V]. fold hi in V. rewrite <- V. apply rnd_val.
  Qed.
  (** Distance from the even step with the range that is used *)
  Lemma step_near i : (i < n)%nat ->
    Rabs (dval (threshold64 p i) - (lo + INR i / INR (n - 1) * r)) <= 4 * unit64 * (Rabs lo + r) + 2 * least64 * (1 + r).
  Proof.
    intros H. destruct (step_ok i H) as [_ ->]. pose proof (quot_ok i H) as Q. pose proof (q_range i H) as Q'. pose proof range_pos as P.
    unfold q in *. set (x := INR i / INR (n - 1)) in *.
    destruct (rnd_err x) as (d1 & e1 & D1 & E1 & R1). rewrite R1 in *.
    destruct (rnd_err ((x * (1 + d1) + e1) * r)) as (d2 & e2 & D2 & E2 & R2). rewrite R2 in *.
    destruct (rnd_err (lo + ((x * (1 + d1) + e1) * r * (1 + d2) + e2))) as (d3 & e3 & D3 & E3 & R3). rewrite R3 in *.
    clear R1 R2 R3.
    assert (L : 0 < eta64) by apply bpow_gt_0. assert (L2 : least64 = 2 * eta64).
    { unfold least64, eta64, two_to. change (-1074)%Z with (-1075 + 1)%Z. rewrite bpow_plus. change (bpow radix2 1) with 2. ring. }
    assert (U : 0 < u64 <= 1 / 1000).
    { split; [ apply bpow_gt_0 | ]. unfold u64. change (bpow radix2 (-53)) with (/ IZR 9007199254740992). lra. }
    change unit64 with u64. rewrite L2. set (y := x * (1 + d1) + e1) in *.
    assert (A1 : Rabs (y - x) <= u64 + eta64).
    { unfold y. replace (x * (1 + d1) + e1 - x) with (x * d1 + e1) by ring. eapply Rle_trans; [ apply Rabs_triang | ].
      apply Rplus_le_compat; [ | exact E1 ]. rewrite Rabs_mult, (Rabs_pos_eq x) by apply Q.
      rewrite <- (Rmult_1_l u64). apply Rmult_le_compat; try apply Rabs_pos; [ apply Q | apply Q | exact D1 ]. }
    set (z := y * r * (1 + d2) + e2) in *.
    assert (A2 : Rabs (z - y * r) <= u64 * r + eta64).
    { unfold z. replace (y * r * (1 + d2) + e2 - y * r) with (d2 * (y * r) + e2) by ring. eapply Rle_trans; [ apply Rabs_triang | ].
      apply Rplus_le_compat; [ | exact E2 ]. rewrite Rabs_mult. apply Rmult_le_compat; try apply Rabs_pos; [ exact D2 | ].
      rewrite Rabs_pos_eq by nra. nra. }
    assert (A3 : Rabs ((lo + z) * (1 + d3) + e3 - (lo + z)) <= u64 * (Rabs lo + Rabs z) + eta64).
    { replace ((lo + z) * (1 + d3) + e3 - (lo + z)) with (d3 * (lo + z) + e3) by ring. eapply Rle_trans; [ apply Rabs_triang | ].
      apply Rplus_le_compat; [ | exact E3 ]. rewrite Rabs_mult. apply Rmult_le_compat; try apply Rabs_pos; [ exact D3 | apply Rabs_triang ]. }
    assert (A4 : Rabs z <= r * (1 + u64) + eta64).
    { replace z with (y * r + (z - y * r)) by ring. eapply Rle_trans; [ apply Rabs_triang | ]. rewrite (Rabs_pos_eq (y * r)) by nra. nra. }
    assert (A5 : Rabs (y * r - x * r) <= (u64 + eta64) * r).
    { rewrite <- Rmult_minus_distr_r, Rabs_mult, (Rabs_pos_eq r) by exact P. apply Rmult_le_compat_r; assumption. }
    set (w := (lo + z) * (1 + d3) + e3) in *.
    replace (w - (lo + x * r)) with ((w - (lo + z)) + ((z - y * r) + (y * r - x * r))) by ring.
    eapply Rle_trans; [ apply Rabs_triang | ]. eapply Rle_trans; [ apply Rplus_le_compat_l, Rabs_triang | ].
    exact (bound_sum u64 eta64 (Rabs lo) r (Rabs z) _ _ _ U L (Rabs_pos lo) P A4 A3 A2 A5).
  Qed.
End Steps.

Lemma thresholds_even p i : threshold_bounds p -> many_thresholds p -> (i < d_nThresholds p)%nat ->
  let lo := fval (d_minThreshold p) in let hi := fval (d_maxThreshold p) in
  Rabs (dval (threshold64 p i) - evenly lo hi (d_nThresholds p) i) <=
    unit32 * (hi - lo) + 8 * unit64 * (Rabs lo + (hi - lo)) + 4 * least64 * (1 + (hi - lo)).
Proof.
  intros B N H lo hi. pose proof (step_near p B N i H) as S. pose proof (range_near p B) as RN. pose proof (range_pos p B) as RP. pose proof (quot_ok p N i H) as Q.
  fold lo hi in S, RN, RP. set (r := rnd32 (hi - lo)) in *. set (x := INR i / INR (d_nThresholds p - 1)) in *.
  unfold evenly. fold x. assert (O : 0 <= hi - lo) by (destruct B as (_ & _ & O & _); unfold hi, lo; lra).
  assert (U32 : 0 < unit32 <= 1 / 1000).
  { split; [ apply bpow_gt_0 | ]. unfold unit32, two_to. change (bpow radix2 (-24)) with (/ IZR 16777216). lra. }
  assert (U64 : 0 < unit64) by apply bpow_gt_0. assert (L64 : 0 < least64) by apply bpow_gt_0.
  replace (dval (threshold64 p i) - (lo + x * (hi - lo))) with
    ((dval (threshold64 p i) - (lo + x * r)) + x * (r - (hi - lo))) by ring.
  eapply Rle_trans; [ apply Rabs_triang | ].
  assert (A : Rabs (x * (r - (hi - lo))) <= unit32 * (hi - lo)).
  { rewrite Rabs_mult, (Rabs_pos_eq x) by apply Q. rewrite <- (Rmult_1_l (unit32 * _)).
    apply Rmult_le_compat; [ apply Q | apply Rabs_pos | apply Q | exact RN ]. }
  assert (Rr : r <= 2 * (hi - lo)).
  { apply Rabs_le_inv in RN. assert (unit32 * (hi - lo) <= 1 * (hi - lo)) by (apply Rmult_le_compat_r; lra). lra. }
  pose proof (Rabs_pos lo) as PL.
  assert (4 * unit64 * (Rabs lo + r) <= 4 * unit64 * (2 * (Rabs lo + (hi - lo)))) by (apply Rmult_le_compat_l; lra).
  assert (2 * least64 * (1 + r) <= 2 * least64 * (2 * (1 + (hi - lo)))) by (apply Rmult_le_compat_l; lra).
  lra.
Qed.
Lemma thresholds_even_exact p i : threshold_bounds p -> many_thresholds p -> (i < d_nThresholds p)%nat ->
  let lo := fval (d_minThreshold p) in let hi := fval (d_maxThreshold p) in
  (exists w : f32, fval w = hi - lo) ->
  Rabs (dval (threshold64 p i) - evenly lo hi (d_nThresholds p) i) <= 4 * unit64 * (Rabs lo + (hi - lo)) + 2 * least64 * (1 + (hi - lo)).
Proof.
  intros B N H lo hi E. pose proof (step_near p B N i H) as S. fold lo hi in S. pose proof (exact_range p E) as X. fold lo hi in X. rewrite X in S. exact S.
Qed.
(** Whole numbers below 2^23 have a difference that is a float. *)
Definition fint (m : Z) : f32 := @binary_normalize 24 128 prec32 emax32 mode_NE m 0 false.
Lemma fint_val m : (Z.abs m < 2 ^ 24)%Z -> fval (fint m) = IZR m /\ ffin (fint m) = true.
Proof.
  intros Hm. set (x := F2R (Float radix2 m 0)). assert (Ex : x = IZR m) by (unfold x, F2R; cbn; ring).
  assert (G : rnd32 x = x).
  { apply round_generic; [ typeclasses eauto | ]. change (SpecFloat.fexp 24 128) with (FLT_exp (-149) 24). apply generic_format_FLT.
    exists (Float radix2 m 0); [ reflexivity | exact Hm | cbn; lia ]. }
  assert (B : Rlt_bool (Rabs (rnd32 x)) (bpow radix2 128) = true).
  { rewrite G, Ex. apply Rlt_bool_true. rewrite <- abs_IZR. apply Rlt_le_trans with (IZR (2 ^ 24)); [ apply IZR_lt, Hm | ].
    change (IZR (2 ^ 24)) with (bpow radix2 24). apply bpow_le. lia. }
  pose proof (@binary_normalize_correct 24 128 prec32 emax32 mode_NE m 0 false) as H. cbv zeta in H. fold x in H.
  unfold rnd32 in B. change ZnearestE with (round_mode mode_NE) in B. rewrite B in H. destruct H as (H1 & H2 & _).
  split; [ | exact H2 ]. etransitivity; [ exact H1 | ]. rewrite <- Ex. exact G.
Qed.
Lemma whole_range p a b : fval (d_minThreshold p) = IZR a -> fval (d_maxThreshold p) = IZR b -> (Z.abs a < 2 ^ 23)%Z -> (Z.abs b < 2 ^ 23)%Z ->
  exists w : f32, fval w = fval (d_maxThreshold p) - fval (d_minThreshold p).
Proof. intros -> -> A B. exists (fint (b - a)). destruct (fint_val (b - a)) as [-> _]; [ lia | ]. apply minus_IZR. Qed.

(** One threshold: the middle *)
Lemma single_threshold p : threshold_bounds p -> d_nThresholds p = 1%nat ->
  let lo := fval (d_minThreshold p) in let hi := fval (d_maxThreshold p) in
  dfin (threshold64 p 0) = true /\
  Rabs (dval (threshold64 p 0) - (lo + hi) / 2) <= unit32 * (hi - lo) + 8 * unit64 * (Rabs lo + (hi - lo)) + 4 * least64 * (1 + (hi - lo)).
Proof.
  intros B N lo hi. pose proof (range_near p B) as RN. pose proof (range_pos p B) as RP. pose proof (range_big p B) as RB.
  destruct (range_ok p B) as [F1 V1]. destruct (lo_ok p B) as [F2 V2]. fold lo hi in RN, RP, RB, V1, V2.
  unfold threshold64. rewrite N. cbn [Nat.ltb Nat.leb]. set (range := widen _) in *. set (r := rnd32 (hi - lo)) in *.
  destruct (dint_val 2 ltac:(reflexivity)) as [V3 _].
  destruct (ddiv_ok range (dint 2) 101 ltac:(lia) F1) as [F4 V4].
  { rewrite V3. lra. }
  { rewrite V1, V3. rewrite Rabs_pos_eq by lra. change (bpow radix2 101) with (two_to 101). lra. }
  rewrite V1, V3 in V4.
  destruct (dadd_ok (widen (d_minThreshold p)) _ 102 ltac:(lia) F2 F4) as [F7 V7].
  { rewrite V2, V4. change (bpow radix2 102) with (two_to (101 + 1)). rewrite <- two_to_double. eapply Rle_trans; [ apply Rabs_triang | ].
    apply Rplus_le_compat.
    - destruct B as (_ & _ & _ & B1 & _). eapply Rle_trans; [ exact B1 | apply bpow_le; lia ].
    - apply (rnd_abs _ 101); [ lia | ]. rewrite Rabs_pos_eq by lra. change (bpow radix2 101) with (two_to 101). lra. }
  split; [ exact F7 | ]. rewrite V7, V2, V4.
  destruct (rnd_err (r / 2)) as (d2 & e2 & D2 & E2 & R2). rewrite R2.
  destruct (rnd_err (lo + (r / 2 * (1 + d2) + e2))) as (d3 & e3 & D3 & E3 & R3). rewrite R3. clear R2 R3.
  assert (L : 0 < eta64) by apply bpow_gt_0. assert (L2 : least64 = 2 * eta64).
  { unfold least64, eta64, two_to. change (-1074)%Z with (-1075 + 1)%Z. rewrite bpow_plus. change (bpow radix2 1) with 2. ring. }
  assert (U : 0 < u64 <= 1 / 1000).
  { split; [ apply bpow_gt_0 | ]. unfold u64. change (bpow radix2 (-53)) with (/ IZR 9007199254740992). lra. }
  change unit64 with u64. rewrite L2. assert (O : 0 <= hi - lo) by (destruct B as (_ & _ & O & _); unfold hi, lo; lra).
  assert (U32 : 0 < unit32 <= 1 / 1000).
  { split; [ apply bpow_gt_0 | ]. unfold unit32, two_to. change (bpow radix2 (-24)) with (/ IZR 16777216). lra. }
  assert (Rr : r <= 2 * (hi - lo)).
  { apply Rabs_le_inv in RN. assert (unit32 * (hi - lo) <= 1 * (hi - lo)) by (apply Rmult_le_compat_r; lra). lra. }
  set (z := r / 2 * (1 + d2) + e2) in *.
  assert (A2 : Rabs (z - r / 2) <= u64 * r + eta64).
  { unfold z. replace (r / 2 * (1 + d2) + e2 - r / 2) with (d2 * (r / 2) + e2) by ring. eapply Rle_trans; [ apply Rabs_triang | ].
    apply Rplus_le_compat; [ | exact E2 ]. rewrite Rabs_mult. apply Rmult_le_compat; try apply Rabs_pos; [ exact D2 | ].
    rewrite Rabs_pos_eq by lra. lra. }
  assert (A3 : Rabs ((lo + z) * (1 + d3) + e3 - (lo + z)) <= u64 * (Rabs lo + Rabs z) + eta64).
  { replace ((lo + z) * (1 + d3) + e3 - (lo + z)) with (d3 * (lo + z) + e3) by ring. eapply Rle_trans; [ apply Rabs_triang | ].
    apply Rplus_le_compat; [ | exact E3 ]. rewrite Rabs_mult. apply Rmult_le_compat; try apply Rabs_pos; [ exact D3 | apply Rabs_triang ]. }
  assert (A4 : Rabs z <= r * (1 + u64) + eta64).
  { replace z with (r / 2 + (z - r / 2)) by ring. eapply Rle_trans; [ apply Rabs_triang | ]. rewrite (Rabs_pos_eq (r / 2)) by lra. lra. }
  assert (A5 : 0 <= (u64 + eta64) * r) by (apply Rmult_le_pos; lra).
  pose proof (bound_sum u64 eta64 (Rabs lo) r (Rabs z) _ _ _ U L (Rabs_pos lo) RP A4 A3 A2 A5) as S. rewrite Rplus_0_r in S.
  set (w := (lo + z) * (1 + d3) + e3) in *.
  replace (w - (lo + hi) / 2) with ((r - (hi - lo)) / 2 + ((w - (lo + z)) + (z - r / 2))) by field.
  eapply Rle_trans; [ apply Rabs_triang | ]. pose proof (Rabs_triang (w - (lo + z)) (z - r / 2)) as T.
  assert (A6 : Rabs ((r - (hi - lo)) / 2) <= unit32 * (hi - lo)).
  { unfold Rdiv. rewrite Rabs_mult, (Rabs_pos_eq (/ 2)) by lra. pose proof (Rabs_pos (r - (hi - lo))). lra. }
  pose proof (Rabs_pos lo) as PL.
  assert (4 * u64 * (Rabs lo + r) <= 4 * u64 * (2 * (Rabs lo + (hi - lo)))) by (apply Rmult_le_compat_l; lra).
  assert (2 * (2 * eta64) * (1 + r) <= 2 * (2 * eta64) * (2 * (1 + (hi - lo)))) by (apply Rmult_le_compat_l; lra).
  lra.
Qed.

(** The default parameters, and 0 to 22 in steps of one *)
Definition ex_default_thresholds : dthresholds := DThr (fint 50) (fint 220) 18.
Definition ex_unit_steps : dthresholds := DThr (fint 0) (fint 22) 23.
Lemma default_bounds : threshold_bounds ex_default_thresholds /\ many_thresholds ex_default_thresholds /\
  (exists w : f32, fval w = fval (d_maxThreshold ex_default_thresholds) - fval (d_minThreshold ex_default_thresholds)) /\
  forallb (fun i => deq (threshold64 ex_default_thresholds i) (dint (50 + 10 * Z.of_nat i))) (seq 0 18) = true.
Proof.
  destruct (fint_val 50 ltac:(reflexivity)) as [V1 F1]. destruct (fint_val 220 ltac:(reflexivity)) as [V2 F2].
  split; [ | split; [ | split ] ].
  - unfold threshold_bounds. cbn [ex_default_thresholds d_minThreshold d_maxThreshold]. rewrite V1, V2.
    assert (220 <= two_to 100). { apply Rle_trans with (two_to 8); [ unfold two_to; cbn; lra | apply bpow_le; lia ]. }
    split; [ exact F1 | ]. split; [ exact F2 | ]. split; [ lra | ]. split; rewrite Rabs_pos_eq; lra.
  - unfold many_thresholds. cbn. lia.
  - apply (whole_range _ 50 220); assumption || lia.
  - vm_compute. reflexivity.
Qed.
Lemma unit_step_missed : dlt (threshold64 ex_unit_steps 15) (dint 15) = true /\
  evenly (fval (d_minThreshold ex_unit_steps)) (fval (d_maxThreshold ex_unit_steps)) 23 15 = 15.
Proof.
  split; [ vm_compute; reflexivity | ]. unfold evenly. cbn [ex_unit_steps d_minThreshold d_maxThreshold].
  destruct (fint_val 0 ltac:(reflexivity)) as [-> _]. destruct (fint_val 22 ltac:(reflexivity)) as [-> _].
  rewrite !INR_IZR_INZ. cbn [Nat.sub Z.of_nat Pos.of_succ_nat Pos.succ]. lra.
Qed.
