(** C101: correlations in double precision. *)
From Coq Require Import ZArith Reals Lra Psatz Lia Bool List.
From Flocq Require Import Core BinarySingleNaN.
From Verif.Base Require Import Float.
From Verif.Model Require Import FloatCode.
From Verif.Spec Require Import FloatSpec.
From Verif.Proofs Require Import FloatLemmas FloatStat.
Local Open Scope R_scope.

Lemma dabs_ok x : dfin x = true -> dfin (dabs x) = true /\ dval (dabs x) = Rabs (dval x).
Proof. intros F. split; [ unfold dfin, dabs; rewrite is_finite_Babs; exact F | apply B2R_Babs ]. Qed.

(** Relative error only, away from underflow *)
Lemma rnd_rel y : two_to (-900) <= Rabs y -> Rabs (rnd y - y) <= 101 / 100 * u64 * Rabs y.
Proof.
  intros H. eapply Rle_trans; [ apply near_rnd | ].
  assert (E : 100 * eta64 <= two_to (-1000)).
  { apply Rle_trans with (two_to 7 * two_to (-1075)); [ change (two_to 7) with 128; change eta64 with (two_to (-1075)); pose proof (bpow_gt_0 radix2 (-1075)); unfold two_to; lra | ].
    rewrite two_to_mul. apply bpow_le. lia. }
  assert (L : two_to (-1000) <= u64 * Rabs y).
  { apply Rle_trans with (two_to (-53) * two_to (-900)); [ rewrite two_to_mul; apply bpow_le; lia | ].
    apply Rmult_le_compat_l; [ left; apply bpow_gt_0 | exact H ]. }
  lra.
Qed.
Lemma sigma_ok c : dfin c = true -> two_to (-52) <= sqrt (Rabs (dval c)) ->
  let s := dsqrt (dabs c) in
  dlt s (dnum 1 (-52)) = false /\ dfin s = true /\ two_to (-52) <= dval s /\
  Rabs (dval s - sqrt (Rabs (dval c))) <= 101 / 100 * u64 * sqrt (Rabs (dval c)).
Proof.
  intros F H s. destruct (dabs_ok c F) as [F1 V1]. destruct (dsqrt_ok (dabs c) F1) as [F2 V2]; [ rewrite V1; apply Rabs_pos | ].
  fold s in F2, V2. rewrite V1 in V2. destruct (dnum_val 1 (-52) ltac:(reflexivity) ltac:(lia)) as [V3 F3].
  assert (G : two_to (-52) <= dval s).
  { rewrite V2. unfold two_to. rewrite <- (rnd_bpow (-52)) by lia. apply rnd_le. exact H. }
  split.
  - destruct (dlt s (dnum 1 (-52))) eqn:L; [ | reflexivity ]. apply dlt_ok in L; [ | exact F2 | exact F3 ].
    rewrite V3, Rmult_1_l in L. unfold two_to in G. lra.
  - split; [ exact F2 | ]. split; [ exact G | ]. rewrite V2. pose proof (sqrt_pos (Rabs (dval c))) as P. rewrite <- (Rabs_pos_eq _ P) at 3.
    apply rnd_rel. rewrite Rabs_pos_eq by exact P. eapply Rle_trans; [ | exact H ]. apply bpow_le. lia.
Qed.

Lemma sqrt_big c : Rabs (dval c) <= two_to 900 -> sqrt (Rabs (dval c)) <= two_to 450.
Proof.
  intros H. rewrite <- (sqrt_square (two_to 450)) by (left; apply bpow_gt_0). apply sqrt_le_1_alt. rewrite two_to_mul. exact H.
Qed.
(** Dividing by something near *)
Lemma quotient_near c p P d : 0 < P -> 0 <= d <= 1 / 100 -> Rabs (p - P) <= d * P -> Rabs (c / p - c / P) <= 102 / 100 * d * Rabs (c / P).
Proof.
  intros HP Hd H. apply Rabs_between in H as HH. assert (0 < p) by nra.
  replace (c / p - c / P) with (c / P * ((P - p) / p)) by (field; lra). rewrite Rabs_mult, (Rmult_comm (Rabs (c / P))).
  apply Rmult_le_compat_r; [ apply Rabs_pos | ].
  eapply Rle_trans; [ apply Rabs_div_le with (A := d * P); [ assumption | rewrite Rabs_minus_sym; exact H ] | ].
  apply div_le; [ assumption | ]. nra.
Qed.

Lemma correlation_near c_ij c_ii c_jj : dfin c_ij = true -> dfin c_ii = true -> dfin c_jj = true ->
  let s_i := sqrt (Rabs (dval c_ii)) in let s_j := sqrt (Rabs (dval c_jj)) in
  two_to (-52) <= s_i -> two_to (-52) <= s_j -> Rabs (dval c_ii) <= two_to 900 -> Rabs (dval c_jj) <= two_to 900 ->
  Rabs (dval c_ij) <= s_i * s_j ->
  dfin (correlation64 c_ij c_ii c_jj) = true /\
  Rabs (dval (correlation64 c_ij c_ii c_jj) - dval c_ij / (s_i * s_j)) <= 5 * unit64 * Rabs (dval c_ij / (s_i * s_j)) + least64.
Proof.
  intros F1 F2 F3 s_i s_j H2 H3 B2 B3 H1. apply sqrt_big in B2, B3. fold s_i in B2. fold s_j in B3.
  destruct (sigma_ok c_ii F2 H2) as (L2 & G2 & M2 & N2). destruct (sigma_ok c_jj F3 H3) as (L3 & G3 & M3 & N3).
  fold s_i in N2. fold s_j in N3. unfold correlation64. cbv zeta. rewrite L2, L3.
  set (x := dsqrt (dabs c_ii)) in *. set (y := dsqrt (dabs c_jj)) in *.
  assert (U : 0 < u64 <= 1 / 1000000).
  { split; [ apply bpow_gt_0 | ]. unfold u64. change (bpow radix2 (-53)) with (/ IZR 9007199254740992). lra. }
  assert (P52 : 0 < two_to (-52)) by apply bpow_gt_0. assert (P450 : 0 < two_to 450) by apply bpow_gt_0.
  assert (Pi : 0 < s_i) by lra. assert (Pj : 0 < s_j) by lra.
  assert (X : Rabs (dval x * dval y - s_i * s_j) <= 203 / 100 * u64 * (s_i * s_j)).
  { replace (dval x * dval y - s_i * s_j) with ((dval x - s_i) * s_j + s_i * (dval y - s_j) + (dval x - s_i) * (dval y - s_j)) by ring.
    assert (A1 : Rabs ((dval x - s_i) * s_j) <= 101 / 100 * u64 * s_i * s_j) by (apply Rabs_mul_le; [ exact N2 | rewrite Rabs_pos_eq; lra ]).
    assert (A2 : Rabs (s_i * (dval y - s_j)) <= s_i * (101 / 100 * u64 * s_j)) by (apply Rabs_mul_le; [ rewrite Rabs_pos_eq; lra | exact N3 ]).
    pose proof (Rabs_mul_le _ _ _ _ N2 N3) as A3.
    assert (PP : 0 < s_i * s_j) by (apply Rmult_lt_0_compat; assumption).
    assert (A4 : 101 / 100 * u64 * s_i * (101 / 100 * u64 * s_j) <= 1 / 100 * (u64 * (s_i * s_j))).
    { replace (101 / 100 * u64 * s_i * (101 / 100 * u64 * s_j)) with (10201 / 10000 * u64 * (u64 * (s_i * s_j))) by field.
      apply Rmult_le_compat_r; [ apply Rmult_le_pos; lra | lra ]. }
    eapply Rle_trans; [ apply Rabs_triang | ]. pose proof (Rabs_triang ((dval x - s_i) * s_j) (s_i * (dval y - s_j))). lra. }
  assert (PP : 0 < s_i * s_j) by (apply Rmult_lt_0_compat; assumption).
  assert (BP : s_i * s_j <= two_to 900).
  { replace 900%Z with (450 + 450)%Z by lia. rewrite <- two_to_mul. apply Rmult_le_compat; lra. }
  assert (LP : two_to (-104) <= dval x * dval y).
  { replace (-104)%Z with (-52 + -52)%Z by lia. rewrite <- two_to_mul. apply Rmult_le_compat; lra. }
  assert (LP0 : 0 < two_to (-104)) by apply bpow_gt_0.
  pose proof (Rabs_between _ _ _ X) as X'. assert (P900 : 0 < two_to 900) by apply bpow_gt_0.
  assert (uP : u64 * (s_i * s_j) <= 1 / 1000000 * (s_i * s_j)) by (apply Rmult_le_compat_r; lra).
  assert (XB : dval x * dval y <= two_to 901).
  { change 901%Z with (900 + 1)%Z. rewrite <- two_to_mul. change (two_to 1) with 2. lra. }
  destruct (dmul_ok x y 901 ltac:(lia) G2 G3) as [F4 V4].
  { rewrite Rabs_pos_eq by lra. exact XB. }
  assert (N4 : Rabs (dval (dmul x y) - s_i * s_j) <= 31 / 10 * u64 * (s_i * s_j)).
  { rewrite V4. assert (R4 : Rabs (rnd (dval x * dval y) - dval x * dval y) <= 101 / 100 * u64 * Rabs (dval x * dval y)).
    { apply rnd_rel. rewrite Rabs_pos_eq by lra. eapply Rle_trans; [ | exact LP ]. apply bpow_le. lia. }
    rewrite (Rabs_pos_eq (dval x * dval y)) in R4 by lra. pose proof (Rabs_chain _ _ _ _ _ R4 X) as C. eapply Rle_trans; [ exact C | ].
    assert (u64 * (dval x * dval y) <= u64 * (102 / 100 * (s_i * s_j))) by (apply Rmult_le_compat_l; lra).
    assert (0 < u64 * (s_i * s_j)) by (apply Rmult_lt_0_compat; lra). lra. }
  set (p := dmul x y) in *. pose proof (Rabs_between _ _ _ N4) as N4'. assert (Pp : 0 < dval p) by nra.
  assert (Q : Rabs (dval c_ij / dval p - dval c_ij / (s_i * s_j)) <= 102 / 100 * (31 / 10 * u64) * Rabs (dval c_ij / (s_i * s_j))).
  { apply quotient_near; [ exact PP | lra | exact N4 ]. }
  assert (R1 : Rabs (dval c_ij / (s_i * s_j)) <= 1).
  { eapply Rle_trans; [ apply Rabs_div_le; [ exact PP | exact H1 ] | ]. apply div_le; [ exact PP | rewrite Rmult_1_l; apply Rle_refl ]. }
  set (rho := dval c_ij / (s_i * s_j)) in *. pose proof (Rabs_pos rho) as Pr.
  assert (uR : 0 <= u64 * Rabs rho <= 1 / 1000000 * Rabs rho) by (split; [ apply Rmult_le_pos; lra | apply Rmult_le_compat_r; lra ]).
  assert (Q1 : Rabs (dval c_ij / dval p) <= 101 / 100 * Rabs rho).
  { pose proof (Rabs_near _ _ _ _ Q (Rle_refl _)). lra. }
  destruct (ddiv_ok c_ij p 1 ltac:(lia) F1) as [F5 V5]; [ lra | change (bpow radix2 1) with 2; lra | ].
  split; [ exact F5 | ]. rewrite V5. pose proof (Rabs_chain _ _ _ _ _ (near_rnd' _ _ Q1) Q) as C. eapply Rle_trans; [ exact C | ].
  change unit64 with u64. assert (eta64 <= least64) by (apply bpow_le; lia). lra.
Qed.
Lemma correlation_bound c_ij c_ii c_jj : dfin c_ij = true -> dfin c_ii = true -> dfin c_jj = true ->
  let s_i := sqrt (Rabs (dval c_ii)) in let s_j := sqrt (Rabs (dval c_jj)) in
  two_to (-52) <= s_i -> two_to (-52) <= s_j -> Rabs (dval c_ii) <= two_to 900 -> Rabs (dval c_jj) <= two_to 900 ->
  Rabs (dval c_ij) <= s_i * s_j -> Rabs (dval (correlation64 c_ij c_ii c_jj)) <= 1 + two_to (-50).
Proof.
  intros F1 F2 F3 s_i s_j H2 H3 B2 B3 H1. destruct (correlation_near c_ij c_ii c_jj F1 F2 F3 H2 H3 B2 B3 H1) as [_ N].
  fold s_i s_j in N. assert (P52 : 0 < two_to (-52)) by apply bpow_gt_0. assert (PP : 0 < s_i * s_j) by (apply Rmult_lt_0_compat; eapply Rlt_le_trans; [ exact P52 | exact H2 | exact P52 | exact H3 ]).
  assert (R1 : Rabs (dval c_ij / (s_i * s_j)) <= 1).
  { eapply Rle_trans; [ apply Rabs_div_le; [ exact PP | exact H1 ] | ]. apply div_le; [ exact PP | rewrite Rmult_1_l; apply Rle_refl ]. }
  pose proof (Rabs_near _ _ _ _ N R1) as B. eapply Rle_trans; [ exact B | ].
  assert (U : two_to (-50) = 8 * unit64). { change (two_to (-50)) with (two_to (3 + -53)). rewrite <- two_to_mul. reflexivity. }
  assert (L : least64 <= unit64) by (apply bpow_le; lia). assert (0 < unit64) by apply bpow_gt_0. rewrite U.
  assert (5 * unit64 * Rabs (dval c_ij / (s_i * s_j)) <= 5 * unit64 * 1) by (apply Rmult_le_compat_l; lra). lra.
Qed.
(** The diagonal *)
Lemma diagonal_near c : dfin c = true -> dfin (correlation_diagonal64 c) = true /\ 0 <= dval (correlation_diagonal64 c) /\
  Rabs (dval (correlation_diagonal64 c) - sqrt (Rabs (dval c))) <= unit64 * sqrt (Rabs (dval c)) + least64.
Proof.
  intros F. destruct (dabs_ok c F) as [F1 V1]. destruct (dsqrt_ok (dabs c) F1) as [F2 V2]; [ rewrite V1; apply Rabs_pos | ].
  unfold correlation_diagonal64. split; [ exact F2 | ]. rewrite V2, V1. split; [ apply rnd_pos, sqrt_pos | ].
  eapply Rle_trans; [ apply near_rnd | ]. rewrite (Rabs_pos_eq _ (sqrt_pos _)). apply Rplus_le_compat_l, bpow_le. lia.
Qed.
(** Perfect correlation may exceed 1. *)
Lemma above_one : dlt (dint 1) (correlation64 (dint 3) (dint 3) (dint 3)) = true.
Proof. vm_compute. reflexivity. Qed.
Lemma ex_correlation : let s := sqrt (Rabs (dval (dint 3))) in
  dfin (dint 3) = true /\ two_to (-52) <= s /\ Rabs (dval (dint 3)) <= two_to 900 /\ Rabs (dval (dint 3)) <= s * s.
Proof.
  destruct (dint_val 3 ltac:(reflexivity)) as [V F]. rewrite V, Rabs_pos_eq by lra. cbv zeta. split; [ exact F | ]. split; [ | split ].
  - apply Rle_trans with (two_to 0); [ apply bpow_le; lia | ]. change (two_to 0) with 1. rewrite <- sqrt_1. apply sqrt_le_1_alt. lra.
  - apply Rle_trans with (two_to 2); [ change (two_to 2) with 4; lra | apply bpow_le; lia ].
  - rewrite sqrt_sqrt; lra.
Qed.
