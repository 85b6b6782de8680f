(** C97: projection in double precision. *)
From Coq Require Import ZArith Reals Lra Psatz Lia Bool List.
From Flocq Require Import Core BinarySingleNaN.
From Verif.Base Require Import Geom Float.
From Verif.Model Require Import Pose FloatCode.
From Verif.Spec Require Import PinHole FloatSpec.
From Verif.Proofs Require Import FloatLemmas.
Local Open Scope R_scope.

Lemma two_to_pos k : 0 < two_to k.
Proof. apply bpow_gt_0. Qed.
Lemma two_to_le j k : (j <= k)%Z -> two_to j <= two_to k.
Proof. apply bpow_le. Qed.
Lemma two_to_plus j k : two_to (j + k) = two_to j * two_to k.
Proof. apply bpow_plus. Qed.
Lemma unit64_small : 0 < unit64 <= / 1000000000000000.
Proof.
  split; [ apply two_to_pos | ]. unfold unit64, two_to. change (bpow radix2 (-53)) with (/ IZR 9007199254740992).
  apply Rinv_le_contravar; lra.
Qed.

Lemma three_roundings f q c d1 e1 d2 e2 d3 e3 v h :
  0 <= v <= / 1000 -> 0 <= h ->
  Rabs d1 <= v -> Rabs d2 <= v -> Rabs d3 <= v -> Rabs e1 <= h -> Rabs e2 <= h -> Rabs e3 <= h ->
  Rabs ((f * (q * (1 + d1) + e1) * (1 + d2) + e2 + c) * (1 + d3) + e3 - (f * q + c)) <=
  4 * v * Rabs (f * q) + v * Rabs c + 2 * h * (Rabs f + 2).
Proof.
  intros Hv Hh H1 H2 H3 E1 E2 E3.
  replace ((f * (q * (1 + d1) + e1) * (1 + d2) + e2 + c) * (1 + d3) + e3 - (f * q + c)) with
    (f * q * ((1 + d1) * (1 + d2) * (1 + d3) - 1) + f * (e1 * ((1 + d2) * (1 + d3))) + e2 * (1 + d3) + c * d3 + e3) by ring.
  assert (A1 : -v <= d1 <= v) by (revert H1; unfold Rabs; destruct (Rcase_abs d1); lra).
  assert (A2 : -v <= d2 <= v) by (revert H2; unfold Rabs; destruct (Rcase_abs d2); lra).
  assert (A3 : -v <= d3 <= v) by (revert H3; unfold Rabs; destruct (Rcase_abs d3); lra).
  assert (P23 : Rabs ((1 + d2) * (1 + d3)) <= 2) by (rewrite Rabs_pos_eq; nra).
  assert (P3 : Rabs (1 + d3) <= 3 / 2) by (rewrite Rabs_pos_eq; nra).
  assert (Q : Rabs ((1 + d1) * (1 + d2) * (1 + d3) - 1) <= 4 * v).
  { replace ((1 + d1) * (1 + d2) * (1 + d3) - 1) with (d1 + d2 + d3 + (d1 * d2 + (d1 + d2 + d1 * d2) * d3)) by ring.
    assert (B : Rabs (d1 * d2) <= v * / 1000).
    { rewrite Rabs_mult. apply Rmult_le_compat; try apply Rabs_pos; lra. }
    assert (B' : -(v * / 1000) <= d1 * d2 <= v * / 1000) by (revert B; unfold Rabs; destruct (Rcase_abs (d1 * d2)); lra).
    assert (C : Rabs ((d1 + d2 + d1 * d2) * d3) <= (3 * / 1000) * v).
    { rewrite Rabs_mult. apply Rmult_le_compat; try apply Rabs_pos; [ apply Rabs_le; lra | lra ]. }
    assert (C' : -((3 * / 1000) * v) <= (d1 + d2 + d1 * d2) * d3 <= (3 * / 1000) * v)
      by (revert C; unfold Rabs; destruct (Rcase_abs ((d1 + d2 + d1 * d2) * d3)); lra).
    apply Rabs_le. lra. }
  set (t1 := f * q * _). set (t2 := f * (e1 * _)). set (t3 := e2 * _). set (t4 := c * d3).
  assert (T1 : Rabs t1 <= 4 * v * Rabs (f * q)).
  { unfold t1. rewrite Rabs_mult, Rmult_comm. apply Rmult_le_compat_r; [ apply Rabs_pos | exact Q ]. }
  assert (T2 : Rabs t2 <= 2 * h * Rabs f).
  { unfold t2. rewrite Rabs_mult, Rmult_comm. apply Rmult_le_compat_r; [ apply Rabs_pos | ].
    rewrite Rabs_mult, Rmult_comm. apply Rmult_le_compat; try apply Rabs_pos; assumption. }
  assert (T3 : Rabs t3 <= h * (3 / 2)).
  { unfold t3. rewrite Rabs_mult. apply Rmult_le_compat; try apply Rabs_pos; assumption. }
  assert (T4 : Rabs t4 <= v * Rabs c).
  { unfold t4. rewrite Rabs_mult, Rmult_comm. apply Rmult_le_compat_r; [ apply Rabs_pos | exact H3 ]. }
  pose proof (Rabs_triang (t1 + t2 + t3 + t4) e3). pose proof (Rabs_triang (t1 + t2 + t3) t4).
  pose proof (Rabs_triang (t1 + t2) t3). pose proof (Rabs_triang t1 t2). lra.
Qed.

Section Axis.
  Variables f x z c : f64.
  Hypotheses (Ff : dfin f = true) (Fx : dfin x = true) (Fc : dfin c = true).
  Hypothesis Nz : dval z <> 0.
  Hypothesis Bf : Rabs (dval f) <= two_to 400.
  Hypothesis Bc : Rabs (dval c) <= two_to 400.
  Hypothesis Bq : Rabs (dval x / dval z) <= two_to 400.

  Let q := ddiv x z.
  Lemma axis_div : dfin q = true /\ dval q = rnd (dval x / dval z) /\ Rabs (dval q) <= two_to 400.
  Proof.
    destruct (ddiv_ok x z 400 ltac:(lia) Fx Nz Bq) as [F E]. fold q in F, E. split; [ exact F | split; [ exact E | ] ].
    rewrite E. apply rnd_abs; [ lia | exact Bq ].
  Qed.
  Lemma axis_mul : dfin (dmul f q) = true /\ dval (dmul f q) = rnd (dval f * dval q) /\ Rabs (dval (dmul f q)) <= two_to 800.
  Proof.
    destruct axis_div as (F & _ & B).
    assert (P : Rabs (dval f * dval q) <= two_to 800).
    { rewrite Rabs_mult. change 800%Z with (400 + 400)%Z. rewrite two_to_plus. apply Rmult_le_compat; try apply Rabs_pos; assumption. }
    destruct (dmul_ok f q 800 ltac:(lia) Ff F P) as [F' E]. split; [ exact F' | split; [ exact E | ] ].
    rewrite E. apply rnd_abs; [ lia | exact P ].
  Qed.
  Lemma axis_add : dfin (dadd (dmul f q) c) = true /\ dval (dadd (dmul f q) c) = rnd (dval (dmul f q) + dval c).
  Proof.
    destruct axis_mul as (F & _ & B). apply (dadd_ok _ _ 801); [ lia | exact F | exact Fc | ].
    eapply Rle_trans; [ apply Rabs_triang | ]. change 801%Z with (1 + 800)%Z. change (bpow radix2) with two_to. rewrite two_to_plus. change (two_to 1) with 2.
    pose proof (two_to_le 400 800 ltac:(lia)). lra.
  Qed.
  Lemma axis_error : dfin (dadd (dmul f q) c) = true /\
    Rabs (dval (dadd (dmul f q) c) - (dval f * (dval x / dval z) + dval c)) <=
    4 * unit64 * Rabs (dval f * (dval x / dval z)) + unit64 * Rabs (dval c) + least64 * (Rabs (dval f) + 2).
  Proof.
    destruct axis_div as (_ & Ed & _), axis_mul as (_ & Em & _), axis_add as (F & Ea). split; [ exact F | ].
    rewrite Ea, Em, Ed.
    destruct (rnd_err (dval x / dval z)) as (d1 & e1 & D1 & E1 & ->).
    destruct (rnd_err (dval f * (dval x / dval z * (1 + d1) + e1))) as (d2 & e2 & D2 & E2 & ->).
    destruct (rnd_err (dval f * (dval x / dval z * (1 + d1) + e1) * (1 + d2) + e2 + dval c)) as (d3 & e3 & D3 & E3 & ->).
    replace least64 with (2 * eta64).
    2: { unfold least64, eta64, two_to. change (-1074)%Z with (1 + -1075)%Z. rewrite bpow_plus. reflexivity. }
    pose proof unit64_small. apply three_roundings; try assumption; [ change u64 with unit64; lra | apply Rlt_le, bpow_gt_0 ].
  Qed.
End Axis.

Lemma project64 k p : finite_intrinsics k -> finite_point p -> dval (dz p) <> 0 -> moderate (intrinsics_of k) (point_of p) ->
  let exact_pixel := pinhole (intrinsics_of k) (point_of p) in
  let q := pixel_of (projectPoint64 k p) in
  finite_pixel (projectPoint64 k p) /\
  Rabs (px q - px exact_pixel) <= 4 * unit64 * Rabs (px exact_pixel - dval (dcx k)) + unit64 * Rabs (dval (dcx k)) + least64 * (Rabs (dval (dfx k)) + 2) /\
  Rabs (py q - py exact_pixel) <= 4 * unit64 * Rabs (py exact_pixel - dval (dcy k)) + unit64 * Rabs (dval (dcy k)) + least64 * (Rabs (dval (dfy k)) + 2).
Proof.
  intros (K1 & K2 & K3 & K4) (P1 & P2 & P3) Nz (M1 & M2 & M3 & M4 & M5 & M6).
  cbn [intrinsics_of point_of fx fy cx cy vx vy vz] in *. unfold projectPoint64.
  destruct (deq (dz p) (dint 0)) eqn:E.
  { exfalso. apply Nz. destruct dzero_val as [V F]. apply (deq_ok _ _ P3 F) in E. rewrite E. exact V. }
  cbv zeta. unfold pixel_of, pinhole, finite_pixel. cbn [du dv px py fx fy cx cy vx vy vz intrinsics_of point_of].
  destruct (axis_error (dfx k) (dx p) (dz p) (dcx k) K1 P1 K3 Nz M1 M3 M5) as [F1 B1].
  destruct (axis_error (dfy k) (dy p) (dz p) (dcy k) K2 P2 K4 Nz M2 M4 M6) as [F2 B2].
  split; [ split; assumption | ].
  replace (dval (dfx k) * (dval (dx p) / dval (dz p)) + dval (dcx k) - dval (dcx k)) with (dval (dfx k) * (dval (dx p) / dval (dz p))) by ring.
  replace (dval (dfy k) * (dval (dy p) / dval (dz p)) + dval (dcy k) - dval (dcy k)) with (dval (dfy k) * (dval (dy p) / dval (dz p))) by ring.
  split; assumption.
Qed.

(** In pixels: an ordinary camera *)
Lemma project64_pixels k p : finite_intrinsics k -> finite_point p -> dval (dz p) <> 0 ->
  let e := pinhole (intrinsics_of k) (point_of p) in
  Rabs (dval (dfx k)) <= 1000000 -> Rabs (dval (dfy k)) <= 1000000 ->
  Rabs (dval (dcx k)) <= 10000 -> Rabs (dval (dcy k)) <= 10000 ->
  Rabs (dval (dx p) / dval (dz p)) <= 1000000 -> Rabs (dval (dy p) / dval (dz p)) <= 1000000 ->
  Rabs (px e) <= 10000 -> Rabs (py e) <= 10000 ->
  let q := pixel_of (projectPoint64 k p) in
  finite_pixel (projectPoint64 k p) /\
  Rabs (px q - px e) <= 1 / 10 ^ 10 /\ Rabs (py q - py e) <= 1 / 10 ^ 10.
Proof.
  intros K P Nz e H1 H2 H3 H4 H5 H6 H7 H8.
  assert (Big : 1000000 <= two_to 400).
  { apply Rle_trans with (two_to 20); [ change (two_to 20) with (IZR 1048576); lra | apply two_to_le; lia ]. }
  destruct (project64 k p K P Nz) as (F & B1 & B2).
  { repeat split; cbn [intrinsics_of point_of fx fy cx cy vx vy vz]; lra. }
  split; [ exact F | ]. fold e in B1, B2. pose proof unit64_small as [U0 U1].
  assert (L : 0 < least64 <= / 1000000000000000000).
  { split; [ apply two_to_pos | ]. apply Rle_trans with (two_to (-60)); [ apply two_to_le; lia | ].
    unfold two_to. change (bpow radix2 (-60)) with (/ IZR 1152921504606846976). apply Rinv_le_contravar; lra. }
  assert (T : forall a b f : R, Rabs a <= 10000 -> Rabs b <= 10000 -> Rabs f <= 1000000 ->
    4 * unit64 * Rabs (a - b) + unit64 * Rabs b + least64 * (Rabs f + 2) <= 1 / 10 ^ 10).
  { intros a b f Ha Hb Hf.
    assert (Rabs (a - b) <= 20000) by (pose proof (Rabs_triang a (- b)) as Q; rewrite Rabs_Ropp in Q; unfold Rminus; lra).
    assert (unit64 * Rabs (a - b) <= / 1000000000000000 * 20000) by (apply Rmult_le_compat; try apply Rabs_pos; lra).
    assert (unit64 * Rabs b <= / 1000000000000000 * 10000) by (apply Rmult_le_compat; try apply Rabs_pos; lra).
    assert (least64 * (Rabs f + 2) <= / 1000000000000000000 * 1000002)
      by (apply Rmult_le_compat; try (pose proof (Rabs_pos f); lra); lra).
    lra. }
  split; [ eapply Rle_trans; [ exact B1 | ] | eapply Rle_trans; [ exact B2 | ] ]; apply T; assumption.
Qed.

(** Both functions agree in front of the camera. *)
Lemma dmul_zero_l y : dfin y = true -> dfin (dmul (dint 0) y) = true /\ dval (dmul (dint 0) y) = 0.
Proof.
  intros F. destruct dzero_val as [V Z]. destruct (dmul_ok (dint 0) y 0 ltac:(lia) Z F) as [H1 H2].
  - rewrite V, Rmult_0_l, Rabs_R0. apply bpow_ge_0.
  - split; [ exact H1 | ]. rewrite H2, V, Rmult_0_l. apply rnd_0.
Qed.
Lemma done_val : dval (dint 1) = 1 /\ dfin (dint 1) = true.
Proof.
  split; [ | reflexivity ]. unfold dval, dint, dnum. change (B2R _) with (F2R (Float radix2 4503599627370496 (-52))).
  unfold F2R. cbn [Fnum Fexp]. change (bpow radix2 (-52)) with (/ IZR 4503599627370496). field.
Qed.
Lemma dmul_one_r c k : (-1074 <= k < 1024)%Z -> Rabs (dval c) <= two_to k -> dfin c = true -> dfin (dmul c (dint 1)) = true /\ dval (dmul c (dint 1)) = dval c.
Proof.
  intros K B F. destruct done_val as [V Z]. destruct (dmul_ok c (dint 1) k K F Z) as [H1 H2].
  - rewrite V, Rmult_1_r. exact B.
  - split; [ exact H1 | ]. rewrite H2, V, Rmult_1_r. apply rnd_val.
Qed.
Lemma sum3_mid left m y c : dfin m = true -> dfin y = true -> dval y = 0 -> dfin c = true ->
  Rabs (dval m) <= two_to 800 -> Rabs (dval c) <= two_to 400 ->
  dfin (dsum3 left m y c) = true /\ dval (dsum3 left m y c) = rnd (dval m + dval c) /\
  dfin (dsum3 left y m c) = true /\ dval (dsum3 left y m c) = rnd (dval m + dval c).
Proof.
  intros Fm Fy Vy Fc Bm Bc.
  assert (B : Rabs (dval m + dval c) <= two_to 801).
  { eapply Rle_trans; [ apply Rabs_triang | ]. change 801%Z with (1 + 800)%Z. rewrite two_to_plus. change (two_to 1) with 2.
    pose proof (two_to_le 400 800 ltac:(lia)). lra. }
  destruct (dadd_ok m y 800 ltac:(lia) Fm Fy) as [F1 V1]; [ rewrite Vy, Rplus_0_r; exact Bm | ]. rewrite Vy, Rplus_0_r, rnd_val in V1.
  destruct (dadd_ok y m 800 ltac:(lia) Fy Fm) as [F2 V2]; [ rewrite Vy, Rplus_0_l; exact Bm | ]. rewrite Vy, Rplus_0_l, rnd_val in V2.
  destruct (dadd_ok y c 400 ltac:(lia) Fy Fc) as [F3 V3]; [ rewrite Vy, Rplus_0_l; exact Bc | ]. rewrite Vy, Rplus_0_l, rnd_val in V3.
  destruct (dadd_ok (dadd m y) c 801 ltac:(lia) F1 Fc) as [A1 A2]; [ rewrite V1; exact B | ]. rewrite V1 in A2.
  destruct (dadd_ok (dadd y m) c 801 ltac:(lia) F2 Fc) as [A3 A4]; [ rewrite V2; exact B | ]. rewrite V2 in A4.
  destruct (dadd_ok m (dadd y c) 801 ltac:(lia) Fm F3) as [A5 A6]; [ rewrite V3; exact B | ]. rewrite V3 in A6.
  destruct (dadd_ok m c 801 ltac:(lia) Fm Fc) as [A7 A8]; [ exact B | ].
  destruct (dadd_ok y (dadd m c) 801 ltac:(lia) Fy A7) as [A9 A10].
  { rewrite Vy, Rplus_0_l, A8. apply rnd_abs; [ lia | exact B ]. }
  rewrite Vy, Rplus_0_l, rnd_val in A10. rewrite A8 in A10.
  destruct left; cbn [dsum3]; auto.
Qed.
Lemma tiny_val : dval d1em10 <= 1 / 10 ^ 10 + 1 / 10 ^ 25 /\ dfin d1em10 = true.
Proof.
  split; [ | reflexivity ]. unfold dval, d1em10, dnum. change (B2R _) with (F2R (Float radix2 7737125245533627 (-86))).
  unfold F2R. cbn [Fnum Fexp]. change (bpow radix2 (-86)) with (/ IZR 77371252455336267181195264). lra.
Qed.
Lemma projections_agree left k p : finite_intrinsics k -> finite_point p -> moderate (intrinsics_of k) (point_of p) ->
  1 / 10 ^ 9 <= dval (dz p) <= two_to 1000 ->
  finite_pixel (projectPointEigen64 left k p) /\ pixel_of (projectPointEigen64 left k p) = pixel_of (projectPoint64 k p).
Proof.
  intros (K1 & K2 & K3 & K4) (P1 & P2 & P3) (M1 & M2 & M3 & M4 & M5 & M6) [Lz Uz].
  cbn [intrinsics_of point_of fx fy cx cy vx vy vz] in *.
  assert (Nz : dval (dz p) <> 0) by lra. unfold projectPoint64, projectPointEigen64.
  destruct (deq (dz p) (dint 0)) eqn:E.
  { exfalso. apply Nz. destruct dzero_val as [V F]. apply (deq_ok _ _ P3 F) in E. rewrite E. exact V. }
  destruct dzero_val as [V0 F0].
  destruct (dsub_ok (dz p) (dint 0) 1000 ltac:(lia) P3 F0) as [Fs Vs].
  { rewrite V0, Rminus_0_r, Rabs_pos_eq by lra. exact Uz. }
  rewrite V0, Rminus_0_r, rnd_val in Vs. destruct tiny_val as [Vt Ft].
  assert (G : dlt d1em10 (dsub (dz p) (dint 0)) = true) by (apply (dlt_ok _ _ Ft Fs); rewrite Vs; lra).
  rewrite G. cbv zeta.
  destruct (axis_div (dx p) (dz p) P1 Nz M5) as (D1 & _ & _). destruct (axis_div (dy p) (dz p) P2 Nz M6) as (D2 & _ & _).
  destruct (axis_mul (dfx k) (dx p) (dz p) K1 P1 Nz M1 M5) as (A1 & _ & A2).
  destruct (axis_mul (dfy k) (dy p) (dz p) K2 P2 Nz M2 M6) as (B1 & _ & B2).
  destruct (axis_add (dfx k) (dx p) (dz p) (dcx k) K1 P1 K3 Nz M1 M3 M5) as (_ & C1).
  destruct (axis_add (dfy k) (dy p) (dz p) (dcy k) K2 P2 K4 Nz M2 M4 M6) as (_ & C2).
  destruct (dmul_zero_l _ D2) as [Z1 Z2]. destruct (dmul_zero_l _ D1) as [Z3 Z4].
  destruct (dmul_one_r (dcx k) 400 ltac:(lia) M3 K3) as [O1 O2]. destruct (dmul_one_r (dcy k) 400 ltac:(lia) M4 K4) as [O3 O4].
  destruct (sum3_mid left (dmul (dfx k) (ddiv (dx p) (dz p))) (dmul (dint 0) (ddiv (dy p) (dz p))) (dmul (dcx k) (dint 1)))
    as (S1 & S2 & _); try assumption; [ rewrite O2; exact M3 | ].
  destruct (sum3_mid left (dmul (dfy k) (ddiv (dy p) (dz p))) (dmul (dint 0) (ddiv (dx p) (dz p))) (dmul (dcy k) (dint 1)))
    as (_ & _ & S3 & S4); try assumption; [ rewrite O4; exact M4 | ].
  split; [ split; assumption | ]. unfold pixel_of. cbn [du dv]. rewrite S2, S4, C1, C2, O2, O4. reflexivity.
Qed.

(** A camera with a point a third off its axis *)
Definition ex_dcamera : dintrinsics := DIntr (dint 500) (dint 500) (dint 320) (dint 240).
Definition ex_dpoint : dvec3 := DV3 (dint 1) (dint (-2)) (dint 3).
Lemma ex_dcamera_ok : finite_intrinsics ex_dcamera /\ intrinsics_of ex_dcamera = Intr 500 500 320 240.
Proof.
  unfold finite_intrinsics, intrinsics_of, ex_dcamera. cbn [dfx dfy dcx dcy].
  destruct (dint_val 500 ltac:(reflexivity)) as [-> ->], (dint_val 320 ltac:(reflexivity)) as [-> ->], (dint_val 240 ltac:(reflexivity)) as [-> ->].
  auto.
Qed.
Lemma ex_dpoint_ok : finite_point ex_dpoint /\ point_of ex_dpoint = V3 1 (-2) 3.
Proof.
  unfold finite_point, point_of, ex_dpoint. cbn [dx dy dz].
  destruct (dint_val 1 ltac:(reflexivity)) as [-> ->], (dint_val (-2) ltac:(reflexivity)) as [-> ->], (dint_val 3 ltac:(reflexivity)) as [-> ->].
  auto.
Qed.
Lemma ex_dproject :
  finite_intrinsics ex_dcamera /\ finite_point ex_dpoint /\ dval (dz ex_dpoint) <> 0 /\
  moderate (intrinsics_of ex_dcamera) (point_of ex_dpoint) /\
  1 / 10 ^ 9 <= dval (dz ex_dpoint) <= two_to 1000 /\
  pinhole (intrinsics_of ex_dcamera) (point_of ex_dpoint) = V2 (320 + 500 / 3) (240 - 1000 / 3).
Proof.
  destruct ex_dcamera_ok as [K EK], ex_dpoint_ok as [P EP]. split; [ exact K | ]. split; [ exact P | ].
  assert (Z : dval (dz ex_dpoint) = 3) by exact (f_equal vz EP). rewrite Z, EK, EP.
  assert (B : forall k, (10 <= k)%Z -> 1000 <= two_to k).
  { intros k Hk. apply Rle_trans with (two_to 10); [ change (two_to 10) with (IZR 1024); lra | apply two_to_le, Hk ]. }
  pose proof (B 400%Z ltac:(lia)). pose proof (B 1000%Z ltac:(lia)).
  split; [ lra | ]. split; [ | split; [ lra | ] ].
  - unfold moderate. cbn [fx fy cx cy vx vy vz]. repeat split; apply Rabs_le; lra.
  - unfold pinhole. cbn [fx fy cx cy vx vy vz]. f_equal; lra.
Qed.
