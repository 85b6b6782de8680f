(** C100: mean and standard deviation in double precision. *)
From Coq Require Import ZArith Reals Lra Psatz Lia Bool List.
From Flocq Require Import Core BinarySingleNaN.
From Verif.Base Require Import Float Outcome.
From Verif.Model Require Import FloatCode Accumulator.
From Verif.Spec Require Import FloatSpec StatSpec.
From Verif.Proofs Require Import FloatLemmas StatProofs.
Import ListNotations.
Local Open Scope R_scope.

(** ** Single steps with real bounds *)
Lemma near_rnd y : Rabs (rnd y - y) <= u64 * Rabs y + eta64.
Proof.
  destruct (rnd_err y) as (d & e & D & E & ->). replace (y * (1 + d) + e - y) with (d * y + e) by ring.
  eapply Rle_trans; [ apply Rabs_triang | ]. rewrite Rabs_mult. apply Rplus_le_compat; [ | exact E ].
  apply Rmult_le_compat_r; [ apply Rabs_pos | exact D ].
Qed.
Lemma near_rnd' y B : Rabs y <= B -> Rabs (rnd y - y) <= u64 * B + eta64.
Proof.
  intros H. eapply Rle_trans; [ apply near_rnd | ]. apply Rplus_le_compat_r, Rmult_le_compat_l; [ apply bpow_ge_0 | exact H ].
Qed.
Lemma Rabs_between x y B : Rabs (x - y) <= B -> y - B <= x <= y + B.
Proof. intros H. apply Rabs_le_inv in H. lra. Qed.
Lemma Rabs_mul_le a b A B : Rabs a <= A -> Rabs b <= B -> Rabs (a * b) <= A * B.
Proof. intros. rewrite Rabs_mult. apply Rmult_le_compat; try apply Rabs_pos; assumption. Qed.
Lemma Rabs_div_le a b A : 0 < b -> Rabs a <= A -> Rabs (a / b) <= A / b.
Proof.
  intros P H. unfold Rdiv. rewrite Rabs_mult, (Rabs_pos_eq (/ b)) by (left; apply Rinv_0_lt_compat; exact P).
  apply Rmult_le_compat_r; [ left; apply Rinv_0_lt_compat; exact P | exact H ].
Qed.
Lemma div_le a b c : 0 < b -> a <= c * b -> a / b <= c.
Proof. intros P H. apply Rmult_le_reg_r with b; [ exact P | ]. unfold Rdiv. rewrite Rmult_assoc, Rinv_l by lra. lra. Qed.
Lemma Rabs_near x y B C : Rabs (x - y) <= B -> Rabs y <= C -> Rabs x <= C + B.
Proof. intros H1 H2. apply Rabs_le_inv in H1, H2. apply Rabs_le. lra. Qed.
Lemma Rabs_chain x y z B C : Rabs (x - y) <= B -> Rabs (y - z) <= C -> Rabs (x - z) <= B + C.
Proof. intros H1 H2. apply Rabs_le_inv in H1, H2. apply Rabs_le. lra. Qed.

Section Bounds.
  Variables M D a b uM W : R.
  Hypothesis Hb : b = a + 1.
  Hypothesis HuM : uM = u64 * M.
  Hypothesis HW : W = uM * D.
  Hypothesis HM : 0 < M.
  Hypothesis HD : 0 < D <= 2 * M.
  Hypothesis Ha : 0 <= a.
  Hypothesis HN : 1024 * b * u64 * M <= D.
  Hypothesis HE : 1000 * eta64 <= u64 * M.
  Hypothesis HE2 : 1000 * eta64 <= u64 * M * D.

  Fact uM_pos : 0 < uM.
  Proof. rewrite HuM. apply Rmult_lt_0_compat; [ apply bpow_gt_0 | exact HM ]. Qed.
  Fact eta_pos : 0 < eta64.
  Proof. apply bpow_gt_0. Qed.
  Fact u_small : 0 < u64 <= 1 / 1000000.
  Proof. split; [ apply bpow_gt_0 | ]. unfold u64. change (bpow radix2 (-53)) with (/ IZR 9007199254740992). lra. Qed.
  Fact b_pos : 1 <= b.
  Proof. lra. Qed.
  Fact buM : 512 * (b * uM) <= M.
  Proof. rewrite HuM. assert (1024 * (b * (u64 * M)) = 1024 * b * u64 * M) by ring. lra. Qed.

  Lemma mean_bound m mu x : Rabs (m - mu) <= 8 * uM * a -> Rabs mu <= M -> Rabs x <= M ->
    let p := rnd (m * a) in let q := rnd (p + x) in
    Rabs (m * a) <= 2 * M * a /\ Rabs (p + x) <= 3 * M * b /\ Rabs (q / b) <= 4 * M /\
    Rabs (rnd (q / b) - (mu * a + x) / b) <= 8 * uM * b.
  Proof.
    intros Em Hmu Hx p q. pose proof uM_pos as PU. pose proof eta_pos as PE. pose proof u_small as PS. pose proof b_pos as PB. pose proof buM as BU.
    assert (AU : 8 * uM * a <= M) by (rewrite Hb in BU; nra).
    assert (B1 : Rabs m <= 2 * M) by (pose proof (Rabs_near _ _ _ _ Em Hmu); lra).
    assert (B2 : Rabs (m * a) <= 2 * M * a) by (apply Rabs_mul_le; [ exact B1 | rewrite Rabs_pos_eq; lra ]).
    pose proof (near_rnd' _ _ B2) as N1. fold p in N1.
    assert (X1 : u64 * (2 * M * a) = 2 * (uM * a)) by (rewrite HuM; ring). rewrite X1 in N1.
    assert (PA : 0 <= uM * a) by (apply Rmult_le_pos; lra).
    assert (PM : 0 <= M * a) by (apply Rmult_le_pos; lra).
    assert (UA : uM * a <= M * a / 1000000).
    { rewrite HuM. assert (u64 * (M * a) <= 1 / 1000000 * (M * a)) by (apply Rmult_le_compat_r; lra). lra. }
    assert (UM : uM <= M / 1000000) by (rewrite HuM; nra).
    assert (B3 : Rabs p <= 21 / 10 * (M * a) + M / 1000).
    { pose proof (Rabs_near _ _ _ _ N1 B2). lra. }
    assert (B4 : Rabs (p + x) <= 21 / 10 * (M * a) + 11 / 10 * M).
    { eapply Rle_trans; [ apply Rabs_triang | ]. lra. }
    pose proof (near_rnd' _ _ B4) as N2. fold q in N2.
    assert (X2 : u64 * (21 / 10 * (M * a) + 11 / 10 * M) = 21 / 10 * (uM * a) + 11 / 10 * uM) by (rewrite HuM; ring). rewrite X2 in N2.
    assert (B5 : Rabs q <= 3 * (M * a) + 2 * M).
    { pose proof (Rabs_near _ _ _ _ N2 B4). lra. }
    assert (B6 : Rabs (q / b) <= 3 * M).
    { eapply Rle_trans; [ apply Rabs_div_le; [ lra | exact B5 ] | ]. apply div_le; [ lra | ]. rewrite Hb. lra. }
    split; [ exact B2 | ]. split; [ rewrite Hb; lra | ]. split; [ lra | ].
    pose proof (near_rnd' _ _ B6) as N3. assert (X3 : u64 * (3 * M) = 3 * uM) by (rewrite HuM; ring). rewrite X3 in N3.
    assert (N4 : Rabs (q - (mu * a + x)) <= 8 * uM * a * a + (2 * (uM * a) + eta64) + (21 / 10 * (uM * a) + 11 / 10 * uM + eta64)).
    { replace (q - (mu * a + x)) with ((q - (p + x)) + ((p - m * a) + (m - mu) * a)) by ring.
      assert (Rabs ((m - mu) * a) <= 8 * uM * a * a) by (apply Rabs_mul_le; [ exact Em | rewrite Rabs_pos_eq; lra ]).
      eapply Rle_trans; [ apply Rabs_triang | ]. pose proof (Rabs_triang (p - m * a) ((m - mu) * a)). lra. }
    assert (N5 : Rabs (q / b - (mu * a + x) / b) <= 8 * uM * b - 3 * uM - eta64).
    { replace (q / b - (mu * a + x) / b) with ((q - (mu * a + x)) / b) by (field; lra).
      eapply Rle_trans; [ apply Rabs_div_le; [ lra | exact N4 ] | ]. apply div_le; [ lra | ].
      rewrite Hb. assert (E0 : 1000 * eta64 <= uM) by (rewrite HuM; lra).
      assert (eta64 * a <= uM / 1000 * a) by (apply Rmult_le_compat_r; lra).
      replace ((8 * uM * (a + 1) - 3 * uM - eta64) * (a + 1)) with (8 * uM * a * a + 13 * (uM * a) + 5 * uM - eta64 * a - eta64) by ring. lra. }
    pose proof (Rabs_chain _ _ _ _ _ N3 N5). lra.
  Qed.

  Lemma sum_bound s T x : Rabs (s - T) <= 2 * uM * (a * a) -> Rabs T <= M * a -> Rabs x <= M ->
    Rabs (s + x) <= 2 * M * b /\ Rabs (rnd (s + x) - (T + x)) <= 2 * uM * (b * b).
  Proof.
    intros Es HT Hx. pose proof uM_pos as PU. pose proof eta_pos as PE. pose proof u_small as PS. pose proof b_pos as PB. pose proof buM as BU.
    assert (PA : 0 <= uM * a) by (apply Rmult_le_pos; lra). assert (PAA : 0 <= uM * a * a) by (apply Rmult_le_pos; lra).
    assert (A1 : 2 * uM * (a * a) <= M * a / 100).
    { assert (uM * a * a <= M / 512 * a) by (apply Rmult_le_compat_r; [ lra | rewrite Hb in BU; lra ]). lra. }
    assert (B1 : Rabs (s + x) <= 11 / 10 * (M * a) + M).
    { eapply Rle_trans; [ apply Rabs_triang | ]. pose proof (Rabs_near _ _ _ _ Es HT). assert (0 <= M * a) by (apply Rmult_le_pos; lra). lra. }
    split; [ rewrite Hb; assert (0 <= M * a) by (apply Rmult_le_pos; lra); lra | ].
    pose proof (near_rnd' _ _ B1) as N. assert (X : u64 * (11 / 10 * (M * a) + M) = 11 / 10 * (uM * a) + uM) by (rewrite HuM; ring). rewrite X in N.
    assert (E : Rabs (s + x - (T + x)) <= 2 * uM * (a * a)) by (replace (s + x - (T + x)) with (s - T) by ring; exact Es).
    pose proof (Rabs_chain _ _ _ _ _ N E) as C. eapply Rle_trans; [ exact C | ]. rewrite Hb. assert (1000 * eta64 <= uM) by (rewrite HuM; lra). nra.
  Qed.

  Hypothesis Ha1 : 1 <= a.
  Lemma variance_bound v V r mu x : 0 <= v -> 0 <= V <= D * D -> Rabs (v - V) <= 64 * W * a ->
    Rabs (r - mu) <= 8 * uM * b -> Rabs (x - mu) <= D ->
    let tmp := rnd (x - r) in let g := rnd (v * a) in let w := rnd (tmp * tmp) in
    Rabs (x - r) <= 2 * D /\ Rabs (tmp * tmp) <= 4 * (D * D) /\ Rabs (w / a) <= 4 * (D * D) /\ 
    Rabs (v * a) <= 2 * (D * D) * a /\ Rabs (g / b) <= 4 * (D * D) /\ Rabs (rnd (g / b) + rnd (w / a)) <= 8 * (D * D) /\
    0 <= rnd (rnd (g / b) + rnd (w / a)) /\
    Rabs (rnd (rnd (g / b) + rnd (w / a)) - (V * a / b + (x - mu) * (x - mu) / a)) <= 64 * W * b.
  Proof.
    intros Pv HV Ev Er Ht tmp g w. pose proof uM_pos as PU. pose proof eta_pos as PE. pose proof u_small as PS. pose proof b_pos as PB. pose proof buM as BU.
    assert (PW : 0 < W) by (rewrite HW; apply Rmult_lt_0_compat; lra). assert (EW : 1000 * eta64 <= W) by (rewrite HW, HuM; exact HE2). assert (EM : 1000 * eta64 <= uM) by (rewrite HuM; exact HE).
    assert (PD : 0 < D * D) by (apply Rmult_lt_0_compat; lra).
    assert (bD : 1024 * (b * uM) <= D) by (rewrite HuM; replace (1024 * (b * (u64 * M))) with (1024 * b * u64 * M) by ring; exact HN).
    assert (uMD : 1024 * uM <= D) by (assert (1 * uM <= b * uM) by (apply Rmult_le_compat_r; lra); lra).
    assert (uDW : u64 * (D * D) <= 2 * W).
    { rewrite HW, HuM. replace (2 * (u64 * M * D)) with (u64 * (2 * M * D)) by ring. apply Rmult_le_compat_l; [ lra | ]. apply Rmult_le_compat_r; lra. }
    assert (uD : u64 * D <= 2 * uM) by (rewrite HuM; replace (2 * (u64 * M)) with (u64 * (2 * M)) by ring; apply Rmult_le_compat_l; lra).
    assert (bW : 1024 * (b * W) <= D * D).
    { rewrite HW. replace (1024 * (b * (uM * D))) with (1024 * (b * uM) * D) by ring. apply Rmult_le_compat_r; lra. }
    assert (WD : 1024 * W <= D * D) by (assert (1 * W <= b * W) by (apply Rmult_le_compat_r; lra); lra).
    assert (Bv : v <= 11 / 10 * (D * D)).
    { apply Rabs_between in Ev. assert (a * W <= b * W) by (apply Rmult_le_compat_r; [ lra | rewrite Hb; lra ]). lra. }
    (* the difference *)
    assert (N0 : Rabs (x - r - (x - mu)) <= 8 * uM * b) by (replace (x - r - (x - mu)) with (- (r - mu)) by ring; rewrite Rabs_Ropp; exact Er).
    assert (B0 : Rabs (x - r) <= 101 / 100 * D) by (pose proof (Rabs_near _ _ _ _ N0 Ht); lra).
    pose proof (near_rnd' _ _ B0) as N1. fold tmp in N1.
    assert (N2 : Rabs (tmp - (x - mu)) <= 10 * uM * b).
    { pose proof (Rabs_chain _ _ _ _ _ N1 N0). assert (1 * uM <= b * uM / 2) by (rewrite Hb; nra). nra. }
    assert (B2 : Rabs tmp <= 102 / 100 * D) by (pose proof (Rabs_near _ _ _ _ N2 Ht); lra).
    assert (N3 : Rabs (tmp * tmp - (x - mu) * (x - mu)) <= 202 / 10 * W * b).
    { replace (tmp * tmp - (x - mu) * (x - mu)) with ((tmp - (x - mu)) * (tmp + (x - mu))) by ring.
      replace (202 / 10 * W * b) with (10 * uM * b * (202 / 100 * D)) by (rewrite HW; field).
      apply Rabs_mul_le; [ exact N2 | ]. eapply Rle_trans; [ apply Rabs_triang | ]. lra. }
    assert (B3 : Rabs (tmp * tmp) <= 11 / 10 * (D * D)).
    { pose proof (Rabs_mul_le _ _ _ _ B2 B2). nra. }
    pose proof (near_rnd' _ _ B3) as N4. fold w in N4.
    assert (N5 : Rabs (w - (x - mu) * (x - mu)) <= 22 * W * b).
    { pose proof (Rabs_chain _ _ _ _ _ N4 N3). assert (2 * W <= b * W) by (apply Rmult_le_compat_r; [ lra | rewrite Hb; lra ]). lra. }
    assert (B5 : Rabs w <= 12 / 10 * (D * D)) by (pose proof (Rabs_near _ _ _ _ N4 B3); lra).
    assert (Aw : Rabs (w / a) <= 12 / 10 * (D * D)).
    { eapply Rle_trans; [ apply Rabs_div_le; [ lra | exact B5 ] | ]. apply div_le; [ lra | ]. assert (12 / 10 * (D * D) * 1 <= 12 / 10 * (D * D) * a) by (apply Rmult_le_compat_l; lra). lra. }
    pose proof (near_rnd' _ _ Aw) as N6.
    assert (N7 : Rabs (w / a - (x - mu) * (x - mu) / a) <= 44 * W).
    { replace (w / a - (x - mu) * (x - mu) / a) with ((w - (x - mu) * (x - mu)) / a) by (field; lra).
      eapply Rle_trans; [ apply Rabs_div_le; [ lra | exact N5 ] | ]. apply div_le; [ lra | ].
      assert (W * b <= W * (2 * a)) by (apply Rmult_le_compat_l; [ lra | rewrite Hb; lra ]). lra. }
    assert (N8 : Rabs (rnd (w / a) - (x - mu) * (x - mu) / a) <= 47 * W).
    { pose proof (Rabs_chain _ _ _ _ _ N6 N7). lra. }
    assert (B8 : Rabs (rnd (w / a)) <= 13 / 10 * (D * D)) by (pose proof (Rabs_near _ _ _ _ N6 Aw); lra).
    (* the old variance *)
    assert (B9 : Rabs (v * a) <= 11 / 10 * (D * D) * a) by (apply Rabs_mul_le; rewrite Rabs_pos_eq; lra).
    pose proof (near_rnd' _ _ B9) as N9. fold g in N9.
    assert (Wa : 0 <= W * a) by (apply Rmult_le_pos; lra).
    assert (X9 : u64 * (11 / 10 * (D * D) * a) <= 22 / 10 * (W * a)).
    { replace (u64 * (11 / 10 * (D * D) * a)) with (11 / 10 * (u64 * (D * D) * a)) by ring.
      assert (u64 * (D * D) * a <= 2 * W * a) by (apply Rmult_le_compat_r; lra). lra. }
    assert (N10 : Rabs (g / b - v * a / b) <= 3 * W).
    { replace (g / b - v * a / b) with ((g - v * a) / b) by (field; lra).
      eapply Rle_trans; [ apply Rabs_div_le; [ lra | exact N9 ] | ]. apply div_le; [ lra | ]. rewrite Hb. lra. }
    assert (B10 : Rabs (v * a / b) <= 11 / 10 * (D * D)).
    { eapply Rle_trans; [ apply Rabs_div_le; [ lra | exact B9 ] | ]. apply div_le; [ lra | ]. apply Rmult_le_compat_l; [ lra | rewrite Hb; lra ]. }
    assert (B11 : Rabs (g / b) <= 12 / 10 * (D * D)) by (pose proof (Rabs_near _ _ _ _ N10 B10); lra).
    pose proof (near_rnd' _ _ B11) as N11.
    assert (B12 : Rabs (rnd (g / b)) <= 13 / 10 * (D * D)) by (pose proof (Rabs_near _ _ _ _ N11 B11); lra).
    assert (N12 : Rabs (v * a / b - V * a / b) <= 64 * W * a * a / b).
    { replace (v * a / b - V * a / b) with ((v - V) * a / b) by (field; lra). apply Rabs_div_le; [ lra | ].
      apply Rabs_mul_le; [ exact Ev | rewrite Rabs_pos_eq; lra ]. }
    assert (N13 : Rabs (rnd (g / b) - V * a / b) <= 64 * W * a * a / b + 6 * W).
    { pose proof (Rabs_chain _ _ _ _ _ N11 (Rabs_chain _ _ _ _ _ N10 N12)). lra. }
    assert (B14 : Rabs (rnd (g / b) + rnd (w / a)) <= 26 / 10 * (D * D)).
    { eapply Rle_trans; [ apply Rabs_triang | ]. lra. }
    pose proof (near_rnd' _ _ B14) as N14.
    split; [ lra | ]. split; [ lra | ]. split; [ lra | ]. split; [ assert (0 <= D * D * a) by (apply Rmult_le_pos; lra); lra | ].
    split; [ lra | ]. split; [ lra | ]. split.
    - apply rnd_pos. apply Rplus_le_le_0_compat; apply rnd_pos; apply Rmult_le_pos.
      + apply rnd_pos, Rmult_le_pos; lra.
      + left. apply Rinv_0_lt_compat. lra.
      + apply rnd_pos. nra.
      + left. apply Rinv_0_lt_compat. lra.
    - assert (N15 : Rabs (rnd (g / b) + rnd (w / a) - (V * a / b + (x - mu) * (x - mu) / a)) <= 64 * W * a * a / b + 6 * W + 47 * W).
      { replace (rnd (g / b) + rnd (w / a) - (V * a / b + (x - mu) * (x - mu) / a)) with
          ((rnd (g / b) - V * a / b) + (rnd (w / a) - (x - mu) * (x - mu) / a)) by ring.
        eapply Rle_trans; [ apply Rabs_triang | ]. lra. }
      pose proof (Rabs_chain _ _ _ _ _ N14 N15) as N16. eapply Rle_trans; [ exact N16 | ].
      assert (64 * W * a * a / b <= 64 * W * (b - 1)).
      { apply div_le; [ lra | ]. rewrite Hb. replace (64 * W * (a + 1 - 1) * (a + 1)) with (64 * W * a * a + 64 * (W * a)) by ring. lra. }
      lra.
  Qed.
End Bounds.

(** ** Averages and variances of bounded numbers *)
Lemma total_le l c : (forall x, In x l -> x <= c) -> total l <= INR (length l) * c.
Proof.
  induction l as [|x l IH]; intros H; [ cbn; lra | ]. cbn [length]. rewrite S_INR. unfold total in *. cbn [fold_right].
  pose proof (H x (or_introl eq_refl)). specialize (IH (fun y Hy => H y (or_intror Hy))). lra.
Qed.
Lemma total_ge l c : (forall x, In x l -> c <= x) -> INR (length l) * c <= total l.
Proof.
  induction l as [|x l IH]; intros H; [ cbn; lra | ]. cbn [length]. rewrite S_INR. unfold total in *. cbn [fold_right].
  pose proof (H x (or_introl eq_refl)). specialize (IH (fun y Hy => H y (or_intror Hy))). lra.
Qed.
Lemma length_pos {A} (l : list A) : l <> [] -> 0 < INR (length l).
Proof. intros N. apply lt_0_INR. destruct l; [ congruence | cbn; lia ]. Qed.
Lemma average_between l lo hi : l <> [] -> (forall x, In x l -> lo <= x <= hi) -> lo <= average l <= hi.
Proof.
  intros N H. pose proof (length_pos l N) as P. pose proof (total_ge l lo (fun x I => proj1 (H x I))). pose proof (total_le l hi (fun x I => proj2 (H x I))).
  unfold average. split; apply Rmult_le_reg_r with (INR (length l)); try exact P; unfold Rdiv; rewrite Rmult_assoc, Rinv_l by lra; lra.
Qed.
Lemma pushed_var l : l <> [] -> acc_variance (pushed l) = total (map (fun x => (x - average l) * (x - average l)) l) / INR (length l).
Proof.
  intros N. destruct (pushed_spec l) as (_ & _ & E & _). destruct (E N) as [_ ->]. rewrite squares_about. unfold average.
  pose proof (length_pos l N). field. lra.
Qed.
Section Spread.
  Variables (M D : R) (l : list R).
  Hypothesis S : spread M D l.
  Lemma from_average x : In x l -> Rabs (x - average l) <= D.
  Proof.
    intros I. assert (N : l <> []) by (intros ->; exact I).
    destruct (average_between l (x - D) (x + D) N) as [A B].
    { intros y Iy. pose proof (proj2 S y x Iy I) as H. apply Rabs_le_inv in H. lra. }
    apply Rabs_le. lra.
  Qed.
  Lemma total_bound : Rabs (total l) <= M * INR (length l).
  Proof.
    assert (B : forall x, In x l -> - M <= x <= M) by (intros x I; pose proof (proj1 S x I) as H; apply Rabs_le_inv in H; exact H).
    pose proof (total_ge l (- M) (fun x I => proj1 (B x I))). pose proof (total_le l M (fun x I => proj2 (B x I))). apply Rabs_le. lra.
  Qed.
  Lemma imean_bound : 0 <= M -> Rabs (acc_immediate_mean (pushed l)) <= M.
  Proof.
    intros P. destruct (pushed_spec l) as (_ & _ & E1 & E2). destruct l as [|x l'] eqn:El.
    - destruct (E2 eq_refl) as [-> _]. rewrite Rabs_R0. exact P.
    - rewrite <- El in *. destruct E1 as [-> _]; [ congruence | ]. apply Rabs_le. apply average_between; [ congruence | ].
      intros y I. pose proof (proj1 S y I) as H. apply Rabs_le_inv in H. exact H.
  Qed.
  Lemma var_bound : 0 <= acc_variance (pushed l) <= D * D.
  Proof.
    destruct l as [|x l'] eqn:El; [ cbn; split; [ lra | apply Rle_0_sqr ] | ]. rewrite <- El in *. assert (N : l <> []) by congruence.
    rewrite pushed_var by exact N. pose proof (length_pos l N) as P.
    assert (B : forall y, In y (map (fun x => (x - average l) * (x - average l)) l) -> 0 <= y <= D * D).
    { intros y I. apply in_map_iff in I as (z & <- & I). pose proof (from_average z I) as H. split; [ apply Rle_0_sqr | ].
      apply Rabs_le_inv in H. nra. }
    split.
    - apply Rmult_le_pos; [ | left; apply Rinv_0_lt_compat, P ]. pose proof (total_ge _ 0 (fun y I => proj1 (B y I))). lra.
    - apply div_le; [ exact P | ]. pose proof (total_le _ (D * D) (fun y I => proj2 (B y I))) as H. rewrite map_length in H. lra.
  Qed.
End Spread.
Lemma spread_incl M D l l' : incl l' l -> spread M D l -> spread M D l'.
Proof. intros I [A B]. split; auto. Qed.

(** ** The accumulator *)
Definition pushed64 (l : list f64) : daccumulator := fold_left dacc_push l dacc_empty.
Lemma pushed64_snoc l x : pushed64 (l ++ [x]) = dacc_push (pushed64 l) x.
Proof. unfold pushed64. rewrite fold_left_app. reflexivity. Qed.
Definition close (M D : R) (l : list f64) : Prop :=
  let a := pushed64 l in let c := pushed (map dval l) in let n := INR (length l) in
  dacc_count a = length l /\ dfin (dacc_sum a) = true /\ dfin (dacc_immediate_mean a) = true /\ dfin (dacc_variance a) = true /\
  Rabs (dval (dacc_sum a) - acc_sum c) <= 2 * (u64 * M) * (n * n) /\
  Rabs (dval (dacc_immediate_mean a) - acc_immediate_mean c) <= 8 * (u64 * M) * n /\
  0 <= dval (dacc_variance a) /\
  Rabs (dval (dacc_variance a) - acc_variance c) <= 64 * (u64 * M * D) * n.

Lemma two_to_mul a b : two_to a * two_to b = two_to (a + b).
Proof. unfold two_to. rewrite bpow_plus. reflexivity. Qed.
Lemma fits x B k : Rabs x <= B -> B <= two_to k -> Rabs x <= bpow radix2 k.
Proof. intros. eapply Rle_trans; eassumption. Qed.

Section Sizes.
  Variables (M D n : R).
  Hypothesis HD : two_to (-500) <= D <= 2 * M.
  Hypothesis HM : M <= two_to 400.
  Hypothesis HN : 1024 * n * u64 * M <= D.
  Lemma sizes : 0 < M /\ 0 < D /\ n <= two_to 44 /\ D * D <= two_to 802 /\ 1000 * eta64 <= u64 * M /\ 1000 * eta64 <= u64 * M * D.
  Proof.
    assert (P : 0 < two_to (-500)) by apply bpow_gt_0. assert (PM : 0 < M) by lra. assert (PD : 0 < D) by lra.
    assert (U : 0 < u64) by apply bpow_gt_0. split; [ exact PM | ]. split; [ exact PD | ].
    assert (N : n <= two_to 44).
    { assert (512 * u64 * n <= 1) by (apply Rmult_le_reg_r with M; [ exact PM | ]; lra).
      replace (512 * u64) with (two_to (-44)) in H.
      - apply Rmult_le_reg_l with (two_to (-44)); [ apply bpow_gt_0 | ]. rewrite two_to_mul. change (two_to (-44 + 44)) with 1. lra.
      - change 512 with (two_to 9). change u64 with (two_to (-53)). rewrite two_to_mul. reflexivity. }
    split; [ exact N | ]. assert (D2 : D <= two_to 401).
    { change 401%Z with (400 + 1)%Z. rewrite <- two_to_mul. change (two_to 1) with 2. lra. }
    split. { replace 802%Z with (401 + 401)%Z by lia. rewrite <- two_to_mul. apply Rmult_le_compat; lra. }
    assert (E : 1000 * eta64 <= two_to (-1065)).
    { change (-1065)%Z with (10 + -1075)%Z. rewrite <- two_to_mul. change eta64 with (two_to (-1075)). change (two_to 10) with 1024. pose proof (bpow_gt_0 radix2 (-1075)). unfold two_to. lra. }
    assert (M2 : two_to (-501) <= M).
    { change (-500)%Z with (-501 + 1)%Z in HD. rewrite <- two_to_mul in HD. change (two_to 1) with 2 in HD. lra. }
    assert (A : two_to (-554) <= u64 * M).
    { change (-554)%Z with (-53 + -501)%Z. rewrite <- two_to_mul. apply Rmult_le_compat_l; [ lra | exact M2 ]. }
    split.
    - eapply Rle_trans; [ exact E | ]. eapply Rle_trans; [ | exact A ]. apply bpow_le. lia.
    - eapply Rle_trans; [ exact E | ]. apply Rle_trans with (two_to (-554) * two_to (-500)).
      + rewrite two_to_mul. apply bpow_le. lia.
      + apply Rmult_le_compat; try (left; apply bpow_gt_0); [ exact A | lra ].
  Qed.
End Sizes.

Lemma count_val n : INR n <= two_to 44 -> dval (dint (Z.of_nat n)) = INR n /\ dfin (dint (Z.of_nat n)) = true.
Proof.
  intros H. rewrite INR_IZR_INZ in *. apply dint_val. rewrite Z.abs_eq by lia. change (two_to 44) with (IZR (2 ^ 44)) in H. apply le_IZR in H. lia.
Qed.

Lemma close_all M D l : resolved M D l -> close M D l.
Proof.
  induction l as [|x l IH] using rev_ind.
  - intros _. unfold close, pushed64, pushed. cbn [fold_left dacc_empty dacc_count dacc_sum dacc_immediate_mean dacc_variance map acc_empty acc_sum acc_immediate_mean acc_variance length INR].
    destruct dzero_val as [-> F]. rewrite !Rmult_0_r, Rminus_0_r, Rabs_R0. repeat (split; [ first [ reflexivity | exact F | lra ] | ]). lra.
  - intros (F & Sp & HD & HM & HN). rewrite app_length in HN. cbn [length] in HN. rewrite plus_INR in HN. change (INR 1) with 1 in HN.
    change unit64 with u64 in HN.
    assert (U : 0 < u64) by apply bpow_gt_0. assert (Pl := pos_INR (length l)).
    destruct (sizes M D (INR (length l) + 1) HD HM HN) as (PM & PD & Nn & D2 & E1 & E2).
    destruct IH as (C & Fs & Fm & Fv & Es & Em & Pv & Ev).
    { split; [ intros y Iy; apply F, in_app_iff; left; exact Iy | ]. split.
      - eapply spread_incl; [ | exact Sp ]. rewrite map_app. apply incl_appl, incl_refl.
      - split; [ exact HD | ]. split; [ exact HM | ]. change unit64 with u64. eapply Rle_trans; [ | exact HN ].
        apply Rmult_le_compat_r; [ lra | ]. apply Rmult_le_compat_r; lra. }
    assert (Sl : spread M D (map dval l)) by (eapply spread_incl; [ | exact Sp ]; rewrite map_app; apply incl_appl, incl_refl).
    assert (Fx : dfin x = true) by (apply F, in_app_iff; right; left; reflexivity).
    assert (Ix : In (dval x) (map dval (l ++ [x]))) by (apply in_map, in_app_iff; right; left; reflexivity).
    assert (Bx : Rabs (dval x) <= M) by (apply (proj1 Sp), Ix).
    pose proof (from_average M D _ Sp _ Ix) as Ax.
    pose proof (total_bound M D _ Sl) as BT. rewrite map_length in BT. pose proof (imean_bound M D _ Sl (Rlt_le _ _ PM)) as Bm. pose proof (var_bound M D _ Sl) as BV.
    assert (Cs : acc_sum (pushed (map dval l)) = total (map dval l)) by apply pushed_spec. rewrite Cs in Es.
    assert (Cm : acc_immediate_mean (pushed (map dval (l ++ [x]))) = average (map dval (l ++ [x]))).
    { destruct (pushed_spec (map dval (l ++ [x]))) as (_ & _ & E & _). apply E. rewrite map_app. cbn. destruct (map dval l); discriminate. }
    rewrite <- Cm in Ax. clear Cm.
    unfold close. rewrite pushed64_snoc, map_app in *. cbn [map] in *. rewrite pushed_snoc in *.
    rewrite app_length. cbn [length]. rewrite plus_INR. change (INR 1) with 1.
    assert (Cc : acc_count (pushed (map dval l)) = length l) by (rewrite <- (map_length dval l); apply pushed_spec).
    set (c := pushed (map dval l)) in *. set (d := pushed64 l) in *.
    unfold dacc_push, acc_push in *. cbn [dacc_count dacc_sum dacc_immediate_mean dacc_variance acc_sum acc_immediate_mean acc_variance] in *.
    rewrite C, Cc, Cs in *. replace (Datatypes.S (length l) - 1)%nat with (length l) in * by lia. rewrite S_INR in *.
    destruct (count_val (length l) ltac:(lra)) as [Va Fa]. destruct (count_val (Datatypes.S (length l))) as [Vb _]; [ rewrite S_INR; lra | ].
    rewrite S_INR in Vb. set (a := INR (length l)) in *.
    (* the sum *)
    destruct (sum_bound M D a (a + 1) (u64 * M) eq_refl eq_refl PM (conj PD (proj2 HD)) Pl HN E1 _ _ _ Es BT Bx) as [S1 S2].
    assert (NM : two_to 1 * (two_to 400 * two_to 44) <= two_to 500) by (rewrite !two_to_mul; apply bpow_le; lia).
    change (two_to 1) with 2 in NM.
    assert (P44 : 0 < two_to 44) by apply bpow_gt_0. assert (P400 : 0 < two_to 400) by apply bpow_gt_0. assert (P802 : 0 < two_to 802) by apply bpow_gt_0.
    assert (MN : M * (a + 1) <= two_to 400 * two_to 44) by (apply Rmult_le_compat; lra).
    destruct (dadd_ok (dacc_sum d) x 500 ltac:(lia) Fs Fx) as [FS VS].
    { eapply fits; [ exact S1 | ]. lra. }
    (* the mean *)
    destruct (mean_bound M D a (a + 1) (u64 * M) eq_refl eq_refl PM (conj PD (proj2 HD)) Pl HN E1 _ _ _ Em Bm Bx) as (M1 & M2 & M3 & M4).
    destruct (dmul_ok (dacc_immediate_mean d) (dint (Z.of_nat (length l))) 500 ltac:(lia) Fm Fa) as [FP VP].
    { rewrite Va. eapply fits; [ exact M1 | ]. assert (M * a <= M * (a + 1)) by (apply Rmult_le_compat_l; lra). lra. }
    rewrite Va in VP.
    destruct (dadd_ok _ x 501 ltac:(lia) FP Fx) as [FQ VQ].
    { rewrite VP. eapply fits; [ exact M2 | ]. change 501%Z with (500 + 1)%Z. rewrite <- two_to_mul. change (two_to 1) with 2. clear - MN NM PM Pl P400 P44. assert (0 < two_to 500) by apply bpow_gt_0. rewrite Rmult_assoc. lra. }
    rewrite VP in VQ.
    destruct (ddiv_ok _ (dint (Z.of_nat (Datatypes.S (length l)))) 402 ltac:(lia) FQ) as [FM VM].
    { rewrite Vb. lra. }
    { rewrite VQ, Vb. eapply fits; [ exact M3 | ]. change 402%Z with (400 + 2)%Z. rewrite <- two_to_mul. change (two_to 2) with 4. lra. }
    rewrite VQ, Vb in VM.
    split; [ lia | ]. split; [ exact FS | ]. split; [ exact FM | ].
    assert (R1 : Rabs (dval (dadd (dacc_sum d) x) - (total (map dval l) + dval x)) <= 2 * (u64 * M) * ((a + 1) * (a + 1))) by (rewrite VS; exact S2).
    assert (R2 : Rabs (dval (ddiv (dadd (dmul (dacc_immediate_mean d) (dint (Z.of_nat (length l)))) x) (dint (Z.of_nat (Datatypes.S (length l))))) -
      (acc_immediate_mean c * a + dval x) / (a + 1)) <= 8 * (u64 * M) * (a + 1)) by (rewrite VM; exact M4).
    destruct (Nat.ltb_spec 1 (Datatypes.S (length l))) as [L | L].
    + assert (A1 : 1 <= a) by (apply (le_INR 1); lia).
      rewrite VM in R2.
      destruct (variance_bound M D a (a + 1) (u64 * M) (u64 * M * D) eq_refl eq_refl eq_refl PM (conj PD (proj2 HD)) Pl HN E1 E2 A1 _ _ _ _ _ Pv BV Ev R2 Ax)
        as (V1 & V2 & V3 & V4 & V5 & V6 & V7 & V8).
      set (m := ddiv (dadd _ x) _) in *. rewrite <- VM in R2, V1, V2, V3, V6, V7, V8.
      assert (DD : two_to 3 * two_to 802 <= two_to 900) by (rewrite two_to_mul; apply bpow_le; lia). change (two_to 3) with 8 in DD.
      destruct (dsub_ok x m 402 ltac:(lia) Fx FM) as [FT VT].
      { eapply fits; [ exact V1 | ]. change 402%Z with (400 + 2)%Z. rewrite <- two_to_mul. change (two_to 2) with 4. lra. }
      rewrite <- VT in V2, V3, V6, V7, V8.
      destruct (dmul_ok (dsub x m) (dsub x m) 900 ltac:(lia) FT FT) as [FW VW].
      { eapply fits; [ exact V2 | ]. lra. }
      rewrite <- VW in V3, V6, V7, V8.
      destruct (ddiv_ok (dmul (dsub x m) (dsub x m)) (dint (Z.of_nat (length l))) 900 ltac:(lia) FW) as [FZ VZ].
      { rewrite Va. lra. }
      { rewrite Va. eapply fits; [ exact V3 | ]. lra. }
      rewrite Va in VZ. rewrite <- VZ in V6, V7, V8.
      destruct (dmul_ok (dacc_variance d) (dint (Z.of_nat (length l))) 900 ltac:(lia) Fv Fa) as [FG VG].
      { rewrite Va. eapply fits; [ exact V4 | ]. apply Rle_trans with (two_to 1 * (two_to 802 * two_to 44)); [ | rewrite !two_to_mul; apply bpow_le; lia ].
        change (two_to 1) with 2. rewrite Rmult_assoc. apply Rmult_le_compat_l; [ lra | ]. apply Rmult_le_compat; [ apply Rle_0_sqr | lra | exact D2 | lra ]. }
      rewrite Va in VG. rewrite <- VG in V5, V6, V7, V8.
      destruct (ddiv_ok (dmul (dacc_variance d) (dint (Z.of_nat (length l)))) (dint (Z.of_nat (Datatypes.S (length l)))) 900 ltac:(lia) FG) as [FH VH].
      { rewrite Vb. lra. }
      { rewrite Vb. eapply fits; [ exact V5 | ]. lra. }
      rewrite Vb in VH. rewrite <- VH in V6, V7, V8.
      destruct (dadd_ok _ _ 900 ltac:(lia) FH FZ) as [FV VV].
      { eapply fits; [ exact V6 | ]. lra. }
      rewrite <- VV in V7, V8. split; [ exact FV | ]. split; [ exact R1 | ]. split; [ exact R2 | ]. split; [ exact V7 | exact V8 ].
    + split; [ exact Fv | ]. split; [ exact R1 | ]. split; [ exact R2 | ]. split; [ exact Pv | ].
      eapply Rle_trans; [ exact Ev | ]. apply Rmult_le_compat_l; [ | lra ].
      apply Rmult_le_pos; [ lra | ]. apply Rmult_le_pos; [ | lra ]. apply Rmult_le_pos; lra.
Qed.

(** ** The results *)
Lemma mean64_near M D l : l <> [] -> resolved M D l ->
  dfin (mean64 l) = true /\ Rabs (dval (mean64 l) - average (map dval l)) <= 4 * INR (length l) * unit64 * M.
Proof.
  intros N R. pose proof (close_all M D l R) as (C & Fs & _ & _ & Es & _). destruct R as (_ & Sp & HD & HM & HN).
  destruct (sizes M D (INR (length l)) HD HM HN) as (PM & PD & Nn & _ & E1 & _). pose proof (length_pos l N) as P.
  destruct (count_val (length l) Nn) as [Va _]. pose proof (total_bound M D _ Sp) as BT. rewrite map_length in BT.
  assert (Cs : acc_sum (pushed (map dval l)) = total (map dval l)) by apply pushed_spec. rewrite Cs in Es.
  unfold mean64. fold (pushed64 l). unfold dacc_mean. rewrite C. unfold average. rewrite map_length. change unit64 with u64 in *.
  assert (n1 : 1 <= INR (length l)) by (apply (le_INR 1); destruct l; [ congruence | cbn; lia ]).
  set (n := INR (length l)) in *. set (s := dval (dacc_sum (pushed64 l))) in *. set (T := total (map dval l)) in *.
  assert (U : 0 < u64) by apply bpow_gt_0. assert (PU : 0 < u64 * M) by (apply Rmult_lt_0_compat; assumption).
  assert (uM : u64 * M * n <= M / 512).
  { assert (1024 * (u64 * M * n) <= 2 * M) by (replace (1024 * (u64 * M * n)) with (1024 * n * u64 * M) by ring; lra). lra. }
  assert (Q1 : Rabs (s / n - T / n) <= 2 * (u64 * M) * n).
  { replace (s / n - T / n) with ((s - T) / n) by (field; lra). eapply Rle_trans; [ apply Rabs_div_le; [ exact P | exact Es ] | ].
    apply div_le; [ exact P | ]. lra. }
  assert (Q2 : Rabs (T / n) <= M).
  { eapply Rle_trans; [ apply Rabs_div_le; [ exact P | exact BT ] | ]. apply div_le; [ exact P | ]. lra. }
  assert (Q3 : Rabs (s / n) <= 2 * M) by (pose proof (Rabs_near _ _ _ _ Q1 Q2); lra).
  destruct (ddiv_ok (dacc_sum (pushed64 l)) (dint (Z.of_nat (length l))) 401 ltac:(lia) Fs) as [F V].
  { rewrite Va. lra. }
  { rewrite Va. fold s. eapply fits; [ exact Q3 | ]. change 401%Z with (400 + 1)%Z. rewrite <- two_to_mul. change (two_to 1) with 2. lra. }
  split; [ exact F | ]. rewrite V, Va. fold s. assert (Q4 : Rabs (s / n) <= 3 / 2 * M) by (pose proof (Rabs_near _ _ _ _ Q1 Q2); lra).
  pose proof (Rabs_chain _ _ _ _ _ (near_rnd' _ _ Q4) Q1) as Q5. eapply Rle_trans; [ exact Q5 | ].
  assert (u64 * M * 1 <= u64 * M * n) by (apply Rmult_le_compat_l; lra). lra.
Qed.

Lemma sqrt_apart a b : 0 <= a -> 0 <= b -> Rabs (sqrt a - sqrt b) <= sqrt (Rabs (a - b)) /\ sqrt b * Rabs (sqrt a - sqrt b) <= Rabs (a - b).
Proof.
  intros A B. pose proof (sqrt_pos a) as PA. pose proof (sqrt_pos b) as PB. pose proof (sqrt_sqrt a A) as SA. pose proof (sqrt_sqrt b B) as SB.
  set (x := sqrt a) in *. set (y := sqrt b) in *.
  assert (E : Rabs (a - b) = Rabs (x - y) * (x + y)).
  { rewrite <- SA, <- SB. replace (x * x - y * y) with ((x - y) * (x + y)) by ring. rewrite Rabs_mult, (Rabs_pos_eq (x + y)) by lra. reflexivity. }
  pose proof (Rabs_pos (x - y)) as P.
  assert (L : Rabs (x - y) <= x + y) by (apply Rabs_le; lra).
  split.
  - rewrite <- (sqrt_square (Rabs (x - y))) by exact P. apply sqrt_le_1_alt. rewrite E. apply Rmult_le_compat_l; assumption.
  - rewrite E. rewrite (Rmult_comm y). apply Rmult_le_compat_l; lra.
Qed.
Lemma stdev64_near M D l : l <> [] -> resolved M D l ->
  let s := dval (stdev64 l) in let exact_s := std_dev (map dval l) in
  dfin (stdev64 l) = true /\ 0 <= s /\
  exact_s * Rabs (s - exact_s) <= 70 * INR (length l) * unit64 * M * D /\
  Rabs (s - exact_s) <= 9 * sqrt (INR (length l) * unit64 * M * D).
Proof.
  intros N R s exact_s. pose proof (close_all M D l R) as (C & _ & _ & Fv & _ & _ & Pv & Ev). destruct R as (_ & Sp & HD & HM & HN).
  destruct (sizes M D (INR (length l)) HD HM HN) as (PM & PD & Nn & _ & E1 & E2). pose proof (length_pos l N) as P.
  pose proof (var_bound M D _ Sp) as BV. assert (N' : map dval l <> []) by (destruct l; [ congruence | discriminate ]).
  pose proof (pushed_std _ N') as ES. fold exact_s in ES. change unit64 with u64 in *.
  assert (n1 : 1 <= INR (length l)) by (apply (le_INR 1); destruct l; [ congruence | cbn; lia ]).
  set (n := INR (length l)) in *. unfold s, stdev64. fold (pushed64 l). clear s.
  set (v := dval (dacc_variance (pushed64 l))) in *. set (V := acc_variance (pushed (map dval l))) in *.
  destruct (dsqrt_ok _ Fv Pv) as [F E]. split; [ exact F | ]. fold v in E. rewrite E. split; [ apply rnd_pos, sqrt_pos | ].
  assert (U : 0 < u64) by apply bpow_gt_0. assert (U1 : u64 <= 1 / 1000000).
  { unfold u64. change (bpow radix2 (-53)) with (/ IZR 9007199254740992). lra. }
  assert (PW : 0 < u64 * M * D) by (apply Rmult_lt_0_compat; [ apply Rmult_lt_0_compat | ]; assumption).
  assert (nW : 1024 * (n * (u64 * M * D)) <= D * D).
  { replace (1024 * (n * (u64 * M * D))) with (1024 * n * u64 * M * D) by ring. apply Rmult_le_compat_r; lra. }
  assert (W1 : u64 * M * D <= n * (u64 * M * D)) by (rewrite <- (Rmult_1_l (u64 * M * D)) at 1; apply Rmult_le_compat_r; lra).
  destruct (sqrt_apart v V Pv (proj1 BV)) as [A1 A2]. rewrite ES in A1, A2.
  assert (Bs : 0 <= exact_s <= D).
  { rewrite <- ES. split; [ apply sqrt_pos | ]. rewrite <- (sqrt_square D) by lra. apply sqrt_le_1_alt, BV. }
  assert (Bv : sqrt v <= 11 / 10 * D).
  { rewrite <- (sqrt_square (11 / 10 * D)) by lra. apply sqrt_le_1_alt. apply Rabs_between in Ev. nra. }
  assert (Q1 : Rabs (sqrt v) <= 11 / 10 * D) by (rewrite Rabs_pos_eq by apply sqrt_pos; exact Bv).
  pose proof (near_rnd' _ _ Q1) as Q2. pose proof (Rabs_triang (rnd (sqrt v) - sqrt v) (sqrt v - exact_s)) as T.
  replace (rnd (sqrt v) - sqrt v + (sqrt v - exact_s)) with (rnd (sqrt v) - exact_s) in T by ring.
  assert (uD : u64 * D * D <= 2 * (u64 * M * D)).
  { replace (2 * (u64 * M * D)) with (u64 * (2 * M) * D) by ring. apply Rmult_le_compat_r; [ lra | ]. apply Rmult_le_compat_l; lra. }
  assert (PuD : 0 < u64 * D) by (apply Rmult_lt_0_compat; lra).
  assert (etaU : eta64 <= u64 * D / 1000).
  { assert (H : 1000 * eta64 <= two_to (-1065)).
    { change (-1065)%Z with (10 + -1075)%Z. rewrite <- two_to_mul. change eta64 with (two_to (-1075)). change (two_to 10) with 1024. pose proof (bpow_gt_0 radix2 (-1075)). unfold two_to. lra. }
    assert (H2 : two_to (-1065) <= u64 * D).
    { apply Rle_trans with (two_to (-53) * two_to (-500)); [ rewrite two_to_mul; apply bpow_le; lia | ]. apply Rmult_le_compat_l; [ lra | apply HD ]. }
    lra. }
  split.
  - assert (Q3 : exact_s * Rabs (rnd (sqrt v) - sqrt v) <= D * (12 / 10 * (u64 * D))).
    { apply Rmult_le_compat; [ lra | apply Rabs_pos | lra | ]. lra. }
    assert (Q4 : exact_s * Rabs (rnd (sqrt v) - exact_s) <= exact_s * Rabs (rnd (sqrt v) - sqrt v) + exact_s * Rabs (sqrt v - exact_s)).
    { rewrite <- Rmult_plus_distr_l. apply Rmult_le_compat_l; lra. }
    lra.
  - assert (Q5 : sqrt (Rabs (v - V)) <= 8 * sqrt (n * u64 * M * D)).
    { replace 8 with (sqrt (8 * 8)) by (apply sqrt_square; lra). rewrite <- sqrt_mult_alt by lra. apply sqrt_le_1_alt. lra. }
    assert (Q6 : 12 / 10 * (u64 * D) <= sqrt (n * u64 * M * D)).
    { rewrite <- (sqrt_square (12 / 10 * (u64 * D))) by (apply Rmult_le_pos; [ lra | apply Rmult_le_pos; lra ]). apply sqrt_le_1_alt.
      assert (12 / 10 * (u64 * D) * (12 / 10 * (u64 * D)) <= u64 * M * D); [ | lra ].
      replace (12 / 10 * (u64 * D) * (12 / 10 * (u64 * D))) with (144 / 100 * u64 * (u64 * D * D)) by field.
      assert (144 / 100 * u64 * (u64 * D * D) <= 1 / 1000 * (u64 * D * D)) by (apply Rmult_le_compat_r; [ apply Rmult_le_pos; [ apply Rmult_le_pos | ]; lra | lra ]).
      lra. }
    lra.
Qed.
Lemma no_samples : mean64 [] = B754_nan /\ dval (stdev64 []) = 0.
Proof. split; reflexivity. Qed.

(** 1, 2 and 4 *)
Definition ex_samples : list f64 := [dint 1; dint 2; dint 4].
Lemma ex_resolved : resolved 4 3 ex_samples /\ average (map dval ex_samples) = 7 / 3 /\ std_dev (map dval ex_samples) = sqrt (14 / 9).
Proof.
  assert (E : map dval ex_samples = [1; 2; 4]).
  { unfold ex_samples. cbn [map]. rewrite (proj1 (dint_val 1 eq_refl)), (proj1 (dint_val 2 eq_refl)), (proj1 (dint_val 4 eq_refl)). reflexivity. }
  unfold resolved. rewrite E. split; [ split; [ | split; [ split | split; [ | split ] ] ] | split ].
  - intros x [<- | [<- | [<- | []]]]; reflexivity.
  - intros x [<- | [<- | [<- | []]]]; rewrite Rabs_pos_eq; lra.
  - intros x y [<- | [<- | [<- | []]]] [<- | [<- | [<- | []]]]; apply Rabs_le; lra.
  - split; [ | lra ]. apply Rle_trans with (two_to 0); [ apply bpow_le; lia | change (two_to 0) with 1; lra ].
  - apply Rle_trans with (two_to 2); [ change (two_to 2) with 4; lra | apply bpow_le; lia ].
  - cbn [ex_samples length]. change (INR 3) with (1 + 1 + 1). change unit64 with u64. unfold u64. change (bpow radix2 (-53)) with (/ IZR 9007199254740992). lra.
  - unfold average, total. cbn. field.
  - unfold std_dev, average, total. cbn. f_equal. field.
Qed.
