(** Rounding errors of single operations. *)
From Coq Require Import ZArith Reals Lra Psatz Lia Bool.
From Flocq Require Import Core Relative Plus_error BinarySingleNaN.
From Verif.Base Require Import Float.
Local Open Scope R_scope.

Definition rnd (x : R) : R := round radix2 (SpecFloat.fexp 53 1024) ZnearestE x.
Definition u64 : R := bpow radix2 (-53).
Definition eta64 : R := bpow radix2 (-1075).

Lemma fexp_flt : SpecFloat.fexp 53 1024 = FLT_exp (-1074) 53.
Proof. reflexivity. Qed.
Global Instance valid64 : Valid_exp (SpecFloat.fexp 53 1024).
Proof. rewrite fexp_flt. apply FLT_exp_valid. reflexivity. Qed.
Global Instance mono64 : Monotone_exp (SpecFloat.fexp 53 1024).
Proof. rewrite fexp_flt. apply FLT_exp_monotone. Qed.

Lemma rnd_err x : exists d e, Rabs d <= u64 /\ Rabs e <= eta64 /\ rnd x = x * (1 + d) + e.
Proof.
  destruct (error_N_FLT radix2 (-1074) 53 eq_refl (fun z => negb (Z.even z)) x) as (d & e & Hd & He & _ & E).
  exists d, e. split; [ | split ].
  - replace u64 with (/ 2 * bpow radix2 (-53 + 1)); [ exact Hd | ]. unfold u64. rewrite bpow_plus. cbn [bpow Z.pow_pos Pos.iter radix_val radix2]. cbn. lra.
  - replace eta64 with (/ 2 * bpow radix2 (-1074)); [ exact He | ]. unfold eta64.
    change (-1075)%Z with (-1074 + -1)%Z. rewrite bpow_plus. change (bpow radix2 (-1)) with (/ 2). lra.
  - exact E.
Qed.
Lemma rnd_le x y : x <= y -> rnd x <= rnd y.
Proof. apply round_le; typeclasses eauto. Qed.
Lemma rnd_0 : rnd 0 = 0.
Proof. apply round_0; typeclasses eauto. Qed.
Lemma rnd_pos x : 0 <= x -> 0 <= rnd x.
Proof. intros H. rewrite <- rnd_0. apply rnd_le, H. Qed.
Lemma rnd_val (x : f64) : rnd (dval x) = dval x.
Proof. apply round_generic; [ typeclasses eauto | ]. apply (generic_format_B2R 53 1024). Qed.
Lemma rnd_bpow k : (-1074 <= k)%Z -> rnd (bpow radix2 k) = bpow radix2 k.
Proof.
  intros H. apply round_generic; [ typeclasses eauto | ]. apply generic_format_bpow. unfold SpecFloat.fexp, SpecFloat.emin. lia.
Qed.
Lemma rnd_abs x k : (-1074 <= k)%Z -> Rabs x <= bpow radix2 k -> Rabs (rnd x) <= bpow radix2 k.
Proof.
  intros H Hx. apply abs_round_le_generic; [ typeclasses eauto | typeclasses eauto | | exact Hx ].
  apply generic_format_bpow. unfold SpecFloat.fexp, SpecFloat.emin. lia.
Qed.
Lemma rnd_small x k : (-1074 <= k < 1024)%Z -> Rabs x <= bpow radix2 k -> Rlt_bool (Rabs (rnd x)) (bpow radix2 1024) = true.
Proof.
  intros H Hx. apply Rlt_bool_true. eapply Rle_lt_trans; [ apply (rnd_abs x k); [ lia | exact Hx ] | apply bpow_lt; lia ].
Qed.

Lemma dadd_ok x y k : (-1074 <= k < 1024)%Z -> dfin x = true -> dfin y = true -> Rabs (dval x + dval y) <= bpow radix2 k ->
  dfin (dadd x y) = true /\ dval (dadd x y) = rnd (dval x + dval y).
Proof.
  intros K Fx Fy B. pose proof (@Bplus_correct 53 1024 prec64 emax64 mode_NE x y Fx Fy) as H.
  assert (S := rnd_small _ k K B). unfold rnd, dval in S.
  change ZnearestE with (round_mode mode_NE) in S. rewrite S in H. destruct H as (H1 & H2 & _). split; assumption.
Qed.
Lemma dsub_ok x y k : (-1074 <= k < 1024)%Z -> dfin x = true -> dfin y = true -> Rabs (dval x - dval y) <= bpow radix2 k ->
  dfin (dsub x y) = true /\ dval (dsub x y) = rnd (dval x - dval y).
Proof.
  intros K Fx Fy B. pose proof (@Bminus_correct 53 1024 prec64 emax64 mode_NE x y Fx Fy) as H.
  assert (S := rnd_small _ k K B). unfold rnd, dval in S.
  change ZnearestE with (round_mode mode_NE) in S. rewrite S in H. destruct H as (H1 & H2 & _). split; assumption.
Qed.
Lemma dmul_ok x y k : (-1074 <= k < 1024)%Z -> dfin x = true -> dfin y = true -> Rabs (dval x * dval y) <= bpow radix2 k ->
  dfin (dmul x y) = true /\ dval (dmul x y) = rnd (dval x * dval y).
Proof.
  intros K Fx Fy B. pose proof (@Bmult_correct 53 1024 prec64 emax64 mode_NE x y) as H.
  assert (S := rnd_small _ k K B). unfold rnd, dval in S.
  change ZnearestE with (round_mode mode_NE) in S. rewrite S in H. destruct H as (H1 & H2 & _). split; [ | exact H1 ].
  unfold dfin in *. etransitivity; [ exact H2 | ]. rewrite Fx, Fy. reflexivity.
Qed.
Lemma ddiv_ok x y k : (-1074 <= k < 1024)%Z -> dfin x = true -> dval y <> 0 -> Rabs (dval x / dval y) <= bpow radix2 k ->
  dfin (ddiv x y) = true /\ dval (ddiv x y) = rnd (dval x / dval y).
Proof.
  intros K Fx Fy B. pose proof (@Bdiv_correct 53 1024 prec64 emax64 mode_NE x y Fy) as H.
  assert (S := rnd_small _ k K B). unfold rnd, dval in S.
  change ZnearestE with (round_mode mode_NE) in S. rewrite S in H. destruct H as (H1 & H2 & _). split; [ | exact H1 ].
  unfold dfin in *. etransitivity; [ exact H2 | ]. exact Fx.
Qed.
Lemma dsqrt_ok x : dfin x = true -> 0 <= dval x -> dfin (dsqrt x) = true /\ dval (dsqrt x) = rnd (sqrt (dval x)).
Proof.
  intros Fx P. destruct (@Bsqrt_correct 53 1024 prec64 emax64 mode_NE x) as (H1 & H2 & _). split; [ | exact H1 ].
  unfold dfin, dsqrt in *. rewrite H2. destruct x as [s|s| |s m e B]; try reflexivity; try discriminate.
  destruct s; [ | reflexivity ]. exfalso. unfold dval, B2R, F2R in P. cbn [Fnum Fexp SpecFloat.cond_Zopp] in P.
  revert P. apply Rlt_not_le. rewrite <- (Rmult_0_l (bpow radix2 e)). apply Rmult_lt_compat_r; [ apply bpow_gt_0 | ].
  apply IZR_lt. reflexivity.
Qed.
Lemma deq_ok x y : dfin x = true -> dfin y = true -> deq x y = true <-> dval x = dval y.
Proof.
  intros Fx Fy. unfold deq. rewrite (Beqb_correct 53 1024 x y Fx Fy). unfold dval. case Req_bool_spec; intuition discriminate.
Qed.
Lemma dle_ok x y : dfin x = true -> dfin y = true -> dle x y = true <-> dval x <= dval y.
Proof.
  intros Fx Fy. unfold dle. rewrite (Bleb_correct 53 1024 x y Fx Fy). unfold dval. case Rle_bool_spec; split; intros; try discriminate; auto; lra.
Qed.
Lemma dlt_ok x y : dfin x = true -> dfin y = true -> dlt x y = true <-> dval x < dval y.
Proof.
  intros Fx Fy. unfold dlt. rewrite (Bltb_correct 53 1024 x y Fx Fy). unfold dval. case Rlt_bool_spec; split; intros; try discriminate; auto; lra.
Qed.
Lemma dzero_val : dval (dint 0) = 0 /\ dfin (dint 0) = true.
Proof. split; reflexivity. Qed.

(** Whole numbers and other short binary fractions are exact. *)
Lemma dnum_val m e : (Z.abs m < 2 ^ 53)%Z -> (-1074 <= e <= 900)%Z ->
  dval (dnum m e) = IZR m * bpow radix2 e /\ dfin (dnum m e) = true.
Proof.
  intros Hm He. set (x := F2R (Float radix2 m e)).
  assert (G : rnd x = x).
  { apply round_generic; [ typeclasses eauto | ]. rewrite fexp_flt. apply generic_format_FLT.
    exists (Float radix2 m e); [ reflexivity | exact Hm | cbn; lia ]. }
  assert (B : Rlt_bool (Rabs (rnd x)) (bpow radix2 1024) = true).
  { rewrite G. apply Rlt_bool_true. unfold x, F2R. cbn [Fnum Fexp]. rewrite Rabs_mult, (Rabs_pos_eq (bpow radix2 e)) by apply bpow_ge_0.
    apply Rlt_le_trans with (bpow radix2 53 * bpow radix2 e).
    - apply Rmult_lt_compat_r; [ apply bpow_gt_0 | ]. rewrite <- abs_IZR. change (bpow radix2 53) with (IZR (2 ^ 53)). apply IZR_lt, Hm.
    - rewrite <- bpow_plus. apply bpow_le. lia. }
  pose proof (@binary_normalize_correct 53 1024 prec64 emax64 mode_NE m e false) as H. cbv zeta in H. fold x in H.
  unfold rnd in B. change ZnearestE with (round_mode mode_NE) in B. rewrite B in H. destruct H as (H1 & H2 & _).
  split; [ | exact H2 ]. etransitivity; [ exact H1 | exact G ].
Qed.
Lemma dint_val m : (Z.abs m < 2 ^ 53)%Z -> dval (dint m) = IZR m /\ dfin (dint m) = true.
Proof.
  intros H. destruct (dnum_val m 0 H ltac:(lia)) as [V F]. split; [ | exact F ]. unfold dint. rewrite V. cbn. ring.
Qed.

(** ** Floats *)
Definition rnd32 (x : R) : R := round radix2 (SpecFloat.fexp 24 128) ZnearestE x.
Global Instance valid32 : Valid_exp (SpecFloat.fexp 24 128).
Proof. change (SpecFloat.fexp 24 128) with (FLT_exp (-149) 24). apply FLT_exp_valid. reflexivity. Qed.
Lemma rnd32_le x y : x <= y -> rnd32 x <= rnd32 y.
Proof. apply round_le; typeclasses eauto. Qed.
Lemma rnd32_0 : rnd32 0 = 0.
Proof. apply round_0; typeclasses eauto. Qed.
Lemma rnd32_val (x : f32) : rnd32 (fval x) = fval x.
Proof. apply round_generic; [ typeclasses eauto | ]. apply (generic_format_B2R 24 128). Qed.
Lemma fsub_ok (x y : f32) k : (-149 <= k < 128)%Z -> ffin x = true -> ffin y = true -> Rabs (fval x - fval y) <= bpow radix2 k ->
  ffin (fsub x y) = true /\ fval (fsub x y) = rnd32 (fval x - fval y).
Proof.
  intros K Fx Fy B. pose proof (@Bminus_correct 24 128 prec32 emax32 mode_NE x y Fx Fy) as H.
  assert (S : Rlt_bool (Rabs (rnd32 (fval x - fval y))) (bpow radix2 128) = true).
  { apply Rlt_bool_true. eapply Rle_lt_trans; [ | apply (bpow_lt radix2 k); lia ].
    apply abs_round_le_generic; [ typeclasses eauto | typeclasses eauto | | exact B ].
    apply generic_format_bpow. unfold SpecFloat.fexp, SpecFloat.emin. lia. }
  unfold rnd32, fval in S. change ZnearestE with (round_mode mode_NE) in S. rewrite S in H. destruct H as (H1 & H2 & _). split; assumption.
Qed.
Lemma rnd32_sub (x y : f32) : exists d, Rabs d <= bpow radix2 (-24) /\ rnd32 (fval x - fval y) = (fval x - fval y) * (1 + d).
Proof.
  destruct (@FLT_plus_error_N_ex radix2 (-149) 24 eq_refl (fun z => negb (Z.even z)) (fval x) (- fval y)) as (d & D & E).
  - apply (generic_format_B2R 24 128).
  - apply generic_format_opp, (generic_format_B2R 24 128).
  - exists d. split; [ | exact E ]. eapply Rle_trans; [ exact D | ].
    assert (U : u_ro radix2 24 = bpow radix2 (-24)).
    { unfold u_ro. change (bpow radix2 (- (24) + 1)) with (/ IZR 8388608). change (bpow radix2 (-24)) with (/ IZR 16777216). lra. }
    rewrite U. assert (V : 0 < bpow radix2 (-24)) by apply bpow_gt_0. set (v := bpow radix2 (-24)) in *. clearbody v.
    apply Rmult_le_reg_r with (1 + v); [ lra | ]. unfold Rdiv. rewrite Rmult_assoc, Rinv_l by lra. nra.
Qed.
Lemma widen_ok (x : f32) : ffin x = true -> dfin (widen x) = true /\ dval (widen x) = fval x.
Proof.
  destruct x as [s|s| |s m e b]; try discriminate; intros _; [ split; reflexivity | ].
  set (x := fval (B754_finite s m e b)). cbn [widen].
  assert (G : rnd x = x).
  { apply round_generic; [ typeclasses eauto | ]. rewrite fexp_flt.
    destruct (@FLT_format_generic radix2 (-149) 24 prec32 x ltac:(apply (generic_format_B2R 24 128))) as [[m' e'] E1 E2 E3].
    apply generic_format_FLT. exists (Float radix2 m' e'); [ exact E1 | | ]; cbn [Fnum Fexp] in *.
    - eapply Z.lt_trans; [ exact E2 | reflexivity ].
    - lia. }
  assert (B : Rlt_bool (Rabs (rnd x)) (bpow radix2 1024) = true).
  { rewrite G. apply Rlt_bool_true. eapply Rlt_trans; [ apply (abs_B2R_lt_emax 24 128) | apply bpow_lt; lia ]. }
  pose proof (@binary_normalize_correct 53 1024 prec64 emax64 mode_NE (cond_Zopp s (Zpos m)) e s) as H. cbv zeta in H.
  change (F2R (Float radix2 (cond_Zopp s (Zpos m)) e)) with x in H. unfold rnd in B. change ZnearestE with (round_mode mode_NE) in B. rewrite B in H.
  destruct H as (H1 & H2 & _). split; [ exact H2 | ]. etransitivity; [ exact H1 | exact G ].
Qed.
