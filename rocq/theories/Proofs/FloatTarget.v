(** C127: points of the circle grid in double precision. *)
From Coq Require Import ZArith Reals Lra Psatz Lia Bool List.
From Flocq Require Import Core Relative BinarySingleNaN.
From Verif.Base Require Import Geom Float.
From Verif.Model Require Import FloatCode.
From Verif.Spec Require Import TargetSpec FloatSpec.
From Verif.Proofs Require Import TargetProofs FloatLemmas FloatCorrelation.
Import ListNotations.
Local Open Scope R_scope.

(** A multiple of a double is rounded with a relative error, however small it is. *)
Lemma multiple_err (n : Z) (s : f64) : Rabs (rnd (IZR n * dval s) - IZR n * dval s) <= u64 * Rabs (IZR n * dval s).
Proof.
  set (x := IZR n * dval s). destruct (Rle_or_lt (bpow radix2 (-1022)) (Rabs x)) as [L|L].
  - pose proof (relative_error_N_FLT radix2 (-1074) 53 eq_refl (fun z => negb (Z.even z)) x L) as E.
    unfold rnd. rewrite fexp_flt. eapply Rle_trans; [ exact E | ]. apply Rmult_le_compat_r; [ apply Rabs_pos | ].
    replace u64 with (/ 2 * bpow radix2 (-53 + 1)); [ apply Rle_refl | ]. unfold u64. rewrite bpow_plus. cbn. lra.
  - assert (G : rnd x = x).
    { apply round_generic; [ typeclasses eauto | ]. rewrite fexp_flt. apply generic_format_FLT.
      assert (M : exists m e, (-1074 <= e)%Z /\ dval s = IZR m * bpow radix2 e).
      { destruct s as [b|b| |b m e B]; try (exists 0%Z, 0%Z; split; [ lia | cbn; ring ]).
        exists (cond_Zopp b (Zpos m)), e. split; [ | reflexivity ].
        pose proof B as B'. unfold SpecFloat.bounded in B'. apply andb_prop in B' as [B1 _]. unfold SpecFloat.canonical_mantissa in B1.
        apply Zeq_bool_eq in B1. unfold SpecFloat.fexp, SpecFloat.emin in B1. lia. }
      destruct M as (m & e & He & Es). set (k := (n * m * 2 ^ (e + 1074))%Z).
      assert (Ex : x = F2R (Float radix2 k (-1074))).
      { unfold x. rewrite Es. unfold F2R. cbn [Fnum Fexp]. unfold k. rewrite !mult_IZR.
        change (2 ^ (e + 1074))%Z with (radix2 ^ (e + 1074))%Z. rewrite (IZR_Zpower radix2) by lia.
        rewrite !Rmult_assoc. f_equal. f_equal. rewrite <- bpow_plus. f_equal. lia. }
      exists (Float radix2 k (-1074)); [ exact Ex | | cbn; lia ]. cbn [Fnum].
      apply lt_IZR. rewrite abs_IZR. apply Rlt_trans with (bpow radix2 52); [ | change (IZR (radix2 ^ 53)) with (bpow radix2 53); apply bpow_lt; lia ].
      apply Rmult_lt_reg_r with (bpow radix2 (-1074)); [ apply bpow_gt_0 | ]. rewrite <- bpow_plus. change (52 + -1074)%Z with (-1022)%Z.
      rewrite Ex in L. unfold F2R in L. cbn [Fnum Fexp] in L. rewrite Rabs_mult, (Rabs_pos_eq (bpow radix2 (-1074))) in L by apply bpow_ge_0. exact L. }
    rewrite G, Rminus_diag_eq, Rabs_R0 by reflexivity. apply Rmult_le_pos; [ apply bpow_ge_0 | apply Rabs_pos ].
Qed.
Lemma rnd_nearest (d : f64) x : dfin d = true -> dval d = rnd x -> nearest_double d x.
Proof.
  intros F E. split; [ exact F | ]. intros o Fo. rewrite E.
  destruct (round_N_pt radix2 (SpecFloat.fexp 53 1024) (fun z => negb (Z.even z)) x) as [_ N]. apply N. apply (generic_format_B2R 53 1024).
Qed.

(** The coordinate of the n-th row or column *)
Definition coordinate (n : nat) (s : f64) : f64 := dmul (dint (Z.of_nat n)) s.
Lemma small_nat n : (Z.of_nat n < 2 ^ 32)%Z -> 0 <= INR n <= two_to 32.
Proof. intros H. split; [ apply pos_INR | ]. rewrite INR_IZR_INZ. change (two_to 32) with (IZR (2 ^ 32)). apply IZR_le. lia. Qed.
Lemma coordinate_ok n s : ordinary_spacing s -> (Z.of_nat n < 2 ^ 32)%Z ->
  dfin (coordinate n s) = true /\ dval (coordinate n s) = rnd (INR n * dval s).
Proof.
  intros [F B] H. destruct (dint_val (Z.of_nat n)) as [V Fi]; [ lia | ].
  destruct (dmul_ok (dint (Z.of_nat n)) s 1022) as [H1 H2]; [ lia | exact Fi | exact F | | ].
  - rewrite V, <- INR_IZR_INZ, Rabs_mult. destruct (small_nat n H) as [P Q]. rewrite (Rabs_pos_eq _ P).
    change 1022%Z with (32 + 990)%Z. rewrite bpow_plus. apply Rmult_le_compat; [ exact P | apply Rabs_pos | exact Q | exact B ].
  - split; [ exact H1 | ]. unfold coordinate. rewrite H2, V, <- INR_IZR_INZ. reflexivity.
Qed.
Lemma coordinate_nearest n s : ordinary_spacing s -> (Z.of_nat n < 2 ^ 32)%Z -> nearest_double (coordinate n s) (INR n * dval s).
Proof. intros O H. destruct (coordinate_ok n s O H). apply rnd_nearest; assumption. Qed.
Lemma coordinate_err n s : ordinary_spacing s -> (Z.of_nat n < 2 ^ 32)%Z ->
  Rabs (dval (coordinate n s) - INR n * dval s) <= unit64 * (INR n * Rabs (dval s)).
Proof.
  intros O H. destruct (coordinate_ok n s O H) as [_ ->]. pose proof (multiple_err (Z.of_nat n) s) as E. rewrite <- INR_IZR_INZ in E.
  rewrite Rabs_mult, (Rabs_pos_eq (INR n)) in E by apply pos_INR. exact E.
Qed.
Lemma unit_by_size : unit64 * two_to 33 = two_to (-20).
Proof. unfold unit64, two_to. rewrite <- bpow_plus. reflexivity. Qed.
Lemma double_32 : two_to 33 = 2 * two_to 32.
Proof. reflexivity || (unfold two_to; change 33%Z with (1 + 32)%Z; rewrite bpow_plus; reflexivity). Qed.
(** The difference of two coordinates *)
Lemma coordinate_gap m n s : ordinary_spacing s -> (Z.of_nat m < 2 ^ 32)%Z -> (Z.of_nat n < 2 ^ 32)%Z ->
  Rabs (dval (coordinate n s) - dval (coordinate m s) - (INR n - INR m) * dval s) <= two_to (-20) * Rabs (dval s).
Proof.
  intros O Hm Hn. pose proof (coordinate_err m s O Hm) as Em. pose proof (coordinate_err n s O Hn) as En.
  destruct (small_nat m Hm) as [Pm Qm]. destruct (small_nat n Hn) as [Pn Qn].
  rewrite <- unit_by_size, double_32. set (A := Rabs (dval s)) in *. assert (A0 : 0 <= A) by apply Rabs_pos.
  assert (U : 0 <= unit64) by apply bpow_ge_0.
  assert (I : unit64 * (INR m * A) + unit64 * (INR n * A) <= unit64 * (2 * two_to 32) * A).
  { rewrite <- Rmult_plus_distr_l, <- Rmult_plus_distr_r, Rmult_assoc. apply Rmult_le_compat_l; [ exact U | ]. apply Rmult_le_compat_r; [ exact A0 | lra ]. }
  replace (dval (coordinate n s) - dval (coordinate m s) - (INR n - INR m) * dval s) with
    ((dval (coordinate n s) - INR n * dval s) - (dval (coordinate m s) - INR m * dval s)) by ring.
  eapply Rle_trans; [ apply Rabs_triang | ]. rewrite Rabs_Ropp. lra.
Qed.
Lemma gap_small : two_to (-20) <= / 1000000.
Proof. unfold two_to. cbn. lra. Qed.
Lemma coordinate_inj m n s : ordinary_spacing s -> (Z.of_nat m < 2 ^ 32)%Z -> (Z.of_nat n < 2 ^ 32)%Z -> dval s <> 0 ->
  dval (coordinate m s) = dval (coordinate n s) -> m = n.
Proof.
  intros O Hm Hn Ns E. destruct (Nat.eq_dec m n) as [D|D]; [ exact D | exfalso ].
  pose proof (coordinate_gap m n s O Hm Hn) as G. rewrite E in G.
  unfold Rminus in G at 1 2. rewrite Rplus_opp_r, Rplus_0_l, Rabs_Ropp, Rabs_mult in G.
  assert (P : 0 < Rabs (dval s)) by (apply Rabs_pos_lt, Ns).
  assert (Q : 1 <= Rabs (INR n - INR m)).
  { rewrite !INR_IZR_INZ, <- minus_IZR, <- abs_IZR. apply IZR_le. lia. }
  pose proof gap_small. nra.
Qed.

Lemma points64_layout rows cols s : createPoints64 rows cols s =
  layout rows cols (fun r c => DV3 (coordinate c s) (coordinate (rows - 1 - r) s) (dint 0)).
Proof.
  unfold createPoints64, layout. rewrite <- seq_shift, flat_map_concat_map, map_map, <- flat_map_concat_map. apply flat_map_ext.
  intros r. cbv zeta. replace (rows - S r)%nat with (rows - 1 - r)%nat by lia. reflexivity.
Qed.
Lemma map_layout {A B} (g : A -> B) R C f : map g (layout R C f) = layout R C (fun r c => g (f r c)).
Proof.
  unfold layout. generalize (seq 0 R) as l. induction l as [|r l IH]; [ reflexivity | ]. cbn [flat_map]. rewrite map_app, map_map, IH. reflexivity.
Qed.
Lemma points64 rows cols s : countable_target rows cols -> ordinary_spacing s ->
  exists x y : nat -> f64,
    map point_of (createPoints64 rows cols s) = layout rows cols (fun r c => V3 (dval (x c)) (dval (y r)) 0) /\
    (forall p, In p (createPoints64 rows cols s) -> finite_point p) /\
    (forall c, (c < cols)%nat -> nearest_double (x c) (INR c * dval s) /\
       Rabs (dval (x c) - INR c * dval s) <= unit64 * (INR c * Rabs (dval s))) /\
    (forall r, (r < rows)%nat -> nearest_double (y r) (INR (rows - 1 - r) * dval s) /\
       Rabs (dval (y r) - INR (rows - 1 - r) * dval s) <= unit64 * (INR (rows - 1 - r) * Rabs (dval s))).
Proof.
  intros (Hr & Hc & _) O. exists (fun c => coordinate c s), (fun r => coordinate (rows - 1 - r) s).
  split; [ | split; [ | split ] ].
  - rewrite points64_layout, map_layout. unfold point_of. cbn [dx dy dz]. rewrite (proj1 dzero_val). reflexivity.
  - intros p Hp. rewrite points64_layout in Hp. unfold layout in Hp. apply in_flat_map in Hp as (r & Ir & Hp). apply in_map_iff in Hp as (c & <- & Ic).
    apply in_seq in Ir. apply in_seq in Ic. split; [ | split ]; cbn [dx dy dz]; [ apply coordinate_ok; [ exact O | lia ].. | reflexivity ].
  - intros c L. split; [ apply coordinate_nearest | apply coordinate_err ]; (exact O || lia).
  - intros r L. split; [ apply coordinate_nearest | apply coordinate_err ]; (exact O || lia).
Qed.
Lemma points64_distinct rows cols s : countable_target rows cols -> ordinary_spacing s -> dval s <> 0 ->
  NoDup (map point_of (createPoints64 rows cols s)).
Proof.
  intros (Hr & Hc & _) O Ns. rewrite points64_layout, map_layout. apply layout_NoDup. intros k j k' j' Hk Hj Hk' Hj' E.
  pose proof (f_equal vx E) as Ex. pose proof (f_equal vy E) as Ey. unfold point_of in Ex, Ey. cbn [vx vy dx dy] in Ex, Ey.
  apply coordinate_inj in Ex; [ | exact O | lia | lia | exact Ns ]. apply coordinate_inj in Ey; [ | exact O | lia | lia | exact Ns ]. lia.
Qed.
Lemma points64_steps rows cols s r c r' c' p q :
  countable_target rows cols -> ordinary_spacing s ->
  (r < rows)%nat -> (c < cols)%nat -> (r' < rows)%nat -> (c' < cols)%nat ->
  nth_error (createPoints64 rows cols s) (r * cols + c) = Some p -> nth_error (createPoints64 rows cols s) (r' * cols + c') = Some q ->
  Rabs (dval (dx q) - dval (dx p) - (INR c' - INR c) * dval s) <= two_to (-20) * Rabs (dval s) /\
  Rabs (dval (dy q) - dval (dy p) - (INR r - INR r') * dval s) <= two_to (-20) * Rabs (dval s) /\
  (c' = c -> dx q = dx p) /\ (r' = r -> dy q = dy p).
Proof.
  intros (Hr & Hc & _) O Lr Lc Lr' Lc'. rewrite points64_layout, !nth_layout by assumption. intros [= <-] [= <-]. cbn [dx dy].
  split; [ | split; [ | split ] ].
  - apply coordinate_gap; (exact O || lia).
  - replace (INR r - INR r') with (INR (rows - 1 - r') - INR (rows - 1 - r)).
    + apply coordinate_gap; (exact O || lia).
    + rewrite !minus_INR by lia. ring.
  - intros ->. reflexivity.
  - intros ->. reflexivity.
Qed.
(** A spacing with few digits gives the exact points. *)
Lemma coordinate_exact n s m e : ordinary_spacing s -> (Z.of_nat n < 2 ^ 32)%Z -> (Z.abs m <= 2 ^ 21)%Z -> (-1074 <= e)%Z -> dval s = IZR m * two_to e ->
  dval (coordinate n s) = INR n * dval s.
Proof.
  intros O H M Le E. destruct (coordinate_ok n s O H) as [_ ->]. rewrite E, INR_IZR_INZ.
  apply round_generic; [ typeclasses eauto | ]. rewrite fexp_flt. apply generic_format_FLT.
  exists (Float radix2 (Z.of_nat n * m) e); [ unfold F2R; cbn [Fnum Fexp]; rewrite mult_IZR; unfold two_to; ring | cbn [Fnum] | cbn; exact Le ].
  change (radix2 ^ 53)%Z with (2 ^ 32 * 2 ^ 21)%Z. rewrite Z.abs_mul, (Z.abs_eq (Z.of_nat n)) by lia. nia.
Qed.
Lemma points64_exact rows cols s m e : countable_target rows cols -> ordinary_spacing s ->
  (Z.abs m <= 2 ^ 21)%Z -> (-1074 <= e)%Z -> dval s = IZR m * two_to e ->
  map point_of (createPoints64 rows cols s) = layout rows cols (grid_point rows (dval s)).
Proof.
  intros (Hr & Hc & _) O M Le E. rewrite points64_layout, map_layout. unfold layout. rewrite !flat_map_concat_map. f_equal. apply map_ext_in. intros r Ir. apply in_seq in Ir.
  apply map_ext_in. intros c Ic. apply in_seq in Ic. unfold point_of, grid_point. cbn [dx dy dz].
  rewrite !(coordinate_exact _ s m e) by (assumption || lia). rewrite (proj1 dzero_val). reflexivity.
Qed.

(** operator== *)
Lemma spacing_diff s s' : ordinary_spacing s -> ordinary_spacing s' ->
  dfin (dsub s s') = true /\ dval (dsub s s') = rnd (dval s - dval s').
Proof.
  intros [F B] [F' B']. apply (dsub_ok s s' 991); [ lia | exact F | exact F' | ].
  change (bpow radix2 991) with (bpow radix2 (1 + 990)). rewrite bpow_plus. unfold two_to in B, B'.
  change (bpow radix2 1) with 2. eapply Rle_trans; [ apply Rabs_triang | ]. rewrite Rabs_Ropp. lra.
Qed.
Lemma eps_val : dval (dnum 1 (-52)) = two_to (-52) /\ dfin (dnum 1 (-52)) = true.
Proof. destruct (dnum_val 1 (-52)) as [V F]; [ lia | lia | ]. split; [ rewrite V; unfold two_to; ring | exact F ]. Qed.
Lemma rnd_opp x : rnd (- x) = - rnd x.
Proof. apply round_NE_opp. Qed.
Lemma rnd_Rabs x : Rabs (rnd x) = rnd (Rabs x).
Proof.
  destruct (Rle_or_lt 0 x) as [H|H].
  - rewrite (Rabs_pos_eq x H). apply Rabs_pos_eq, rnd_pos, H.
  - rewrite (Rabs_left x H), rnd_opp. pose proof (rnd_pos (- x) ltac:(lra)) as P. rewrite rnd_opp in P. apply Rabs_left1. lra.
Qed.
Lemma eqb64_cases rows cols s rows' cols' s' : ordinary_spacing s -> ordinary_spacing s' ->
  circle_grid_eqb64 rows cols s rows' cols' s' = true <-> rows = rows' /\ cols = cols' /\ rnd (Rabs (dval s - dval s')) < two_to (-52).
Proof.
  intros O O'. destruct (spacing_diff s s' O O') as [F V]. destruct (dabs_ok _ F) as [Fa Va]. destruct eps_val as [Ev Ef].
  unfold circle_grid_eqb64. rewrite !andb_true_iff, !Nat.eqb_eq, (dlt_ok _ _ Fa Ef), Va, V, Ev, rnd_Rabs. tauto.
Qed.
Lemma below_eps : rnd (two_to (-52) - two_to (-105)) = two_to (-52) - two_to (-105).
Proof.
  destruct (dnum_val (2 ^ 53 - 1) (-105)) as [V _]; [ lia | lia | ].
  assert (E : two_to (-52) - two_to (-105) = dval (dnum (2 ^ 53 - 1) (-105))).
  { rewrite V, minus_IZR. change (IZR (2 ^ 53)) with (bpow radix2 53). unfold two_to. change (-52)%Z with (53 + -105)%Z at 1. rewrite bpow_plus. ring. }
  rewrite E. apply rnd_val.
Qed.
Lemma eqb64_close rows cols s rows' cols' s' : ordinary_spacing s -> ordinary_spacing s' ->
  circle_grid_eqb64 rows cols s rows' cols' s' = true -> rows = rows' /\ cols = cols' /\ Rabs (dval s - dval s') < two_to (-52).
Proof.
  intros O O' E. apply eqb64_cases in E as (E1 & E2 & E3); [ | exact O | exact O' ]. split; [ exact E1 | split; [ exact E2 | ] ].
  apply Rnot_le_lt. intros L. apply rnd_le in L. unfold two_to in *. rewrite rnd_bpow in L by lia. lra.
Qed.
Lemma eqb64_yes rows cols s s' : ordinary_spacing s -> ordinary_spacing s' ->
  Rabs (dval s - dval s') <= two_to (-52) - two_to (-105) -> circle_grid_eqb64 rows cols s rows cols s' = true.
Proof.
  intros O O' L. apply eqb64_cases; [ exact O | exact O' | ]. split; [ reflexivity | split; [ reflexivity | ] ].
  apply rnd_le in L. rewrite below_eps in L. pose proof (bpow_gt_0 radix2 (-105)). unfold two_to in *. lra.
Qed.
Lemma multiple_of_eps (s : f64) : 1 <= dval s -> exists k, dval s = IZR k * two_to (-52).
Proof.
  intros L. pose proof (generic_format_B2R 53 1024 s) as G. unfold generic_format in G. fold (dval s) in G.
  set (e := cexp radix2 (SpecFloat.fexp 53 1024) (dval s)) in *. set (m := Ztrunc (scaled_mantissa radix2 (SpecFloat.fexp 53 1024) (dval s))) in *.
  assert (E : (-52 <= e)%Z).
  { unfold e, cexp. assert (M : (1 <= mag radix2 (dval s))%Z) by (apply (mag_ge_bpow radix2 (dval s) 1); cbn; rewrite Rabs_pos_eq; lra).
    unfold SpecFloat.fexp, SpecFloat.emin. lia. }
  exists (m * 2 ^ (e + 52))%Z. etransitivity; [ exact G | ]. unfold F2R. cbn [Fnum Fexp]. rewrite mult_IZR.
  change (2 ^ (e + 52))%Z with (radix2 ^ (e + 52))%Z. rewrite (IZR_Zpower radix2) by lia. rewrite Rmult_assoc. f_equal. unfold two_to.
  rewrite <- bpow_plus. f_equal. lia.
Qed.
Lemma eqb64_large rows cols s rows' cols' s' : ordinary_spacing s -> ordinary_spacing s' -> 1 <= dval s -> 1 <= dval s' ->
  circle_grid_eqb64 rows cols s rows' cols' s' = true <-> rows = rows' /\ cols = cols' /\ dval s = dval s'.
Proof.
  intros O O' L L'. split.
  - intros E. apply eqb64_close in E as (E1 & E2 & E3); [ | exact O | exact O' ]. split; [ exact E1 | split; [ exact E2 | ] ].
    destruct (multiple_of_eps s L) as (k & Ek). destruct (multiple_of_eps s' L') as (k' & Ek'). rewrite Ek, Ek' in E3 |- *.
    rewrite <- Rmult_minus_distr_r, Rabs_mult, <- minus_IZR, <- abs_IZR in E3. pose proof (bpow_gt_0 radix2 (-52)) as P. fold (two_to (-52)) in P.
    rewrite (Rabs_pos_eq (two_to (-52))) in E3 by lra.
    assert (A : IZR (Z.abs (k - k')) < 1) by (apply Rmult_lt_reg_r with (two_to (-52)); lra).
    apply lt_IZR in A. replace k' with k by lia. reflexivity.
  - intros (-> & -> & E). apply eqb64_yes; [ exact O | exact O' | ]. rewrite E, Rminus_diag_eq, Rabs_R0 by reflexivity.
    unfold two_to. pose proof (bpow_lt radix2 (-105) (-52) ltac:(lia)). lra.
Qed.

(** Examples: a spacing of 0.01, which no double is, and one of a quarter *)
Definition centimetre : f64 := dnum 5764607523034235 (-59).
Definition quarter : f64 := dnum 1 (-2).
Lemma spacing_example : countable_target 7 5 /\ ordinary_spacing centimetre /\ dval centimetre <> 0 /\ Rabs (dval centimetre - 1 / 100) <= two_to (-59) /\
  List.length (createPoints64 7 5 centimetre) = 35%nat.
Proof.
  destruct (dnum_val 5764607523034235 (-59)) as [V F]; [ lia | lia | ]. fold centimetre in V, F.
  assert (E : dval centimetre = 5764607523034235 / 576460752303423488) by (rewrite V; cbn; lra).
  split; [ split; [ lia | split; lia ] | ]. split; [ split; [ exact F | ] | split; [ | split ] ].
  - rewrite E. apply Rle_trans with 1; [ rewrite Rabs_pos_eq; lra | ]. change 1 with (bpow radix2 0). apply bpow_le. lia.
  - rewrite E. lra.
  - rewrite E. unfold two_to. cbn. unfold Rabs. destruct Rcase_abs; lra.
  - reflexivity.
Qed.
Lemma quarter_example : countable_target 7 5 /\ ordinary_spacing quarter /\ dval quarter = IZR 1 * two_to (-2).
Proof.
  destruct (dnum_val 1 (-2)) as [V F]; [ lia | lia | ]. fold quarter in V, F.
  split; [ split; [ lia | split; lia ] | split; [ split; [ exact F | ] | exact V ] ].
  rewrite V. apply Rle_trans with 1; [ cbn; rewrite Rabs_pos_eq; lra | ]. change 1 with (bpow radix2 0). apply bpow_le. lia.
Qed.
(** Equal targets of different, tiny spacings; targets of spacings one and one and a half differ. *)
Lemma equal_example :
  (ordinary_spacing (dnum 1 (-60)) /\ ordinary_spacing (dnum 1 (-70)) /\ Rabs (dval (dnum 1 (-60)) - dval (dnum 1 (-70))) <= two_to (-52) - two_to (-105) /\
   circle_grid_eqb64 7 5 (dnum 1 (-60)) 7 5 (dnum 1 (-70)) = true) /\
  (ordinary_spacing (dnum 1 0) /\ ordinary_spacing (dnum 3 (-1)) /\ 1 <= dval (dnum 1 0) /\ 1 <= dval (dnum 3 (-1)) /\
   circle_grid_eqb64 7 5 (dnum 1 0) 7 5 (dnum 3 (-1)) = false).
Proof.
  destruct (dnum_val 1 (-60)) as [Va Fa]; [ lia | lia | ]. destruct (dnum_val 1 (-70)) as [Vb Fb]; [ lia | lia | ].
  destruct (dnum_val 1 0) as [Vc Fc]; [ lia | lia | ]. destruct (dnum_val 3 (-1)) as [Vd Fd]; [ lia | lia | ].
  assert (S : forall x, dfin x = true -> Rabs (dval x) <= 2 -> ordinary_spacing x).
  { intros x F L. split; [ exact F | ]. eapply Rle_trans; [ exact L | ]. change 2 with (bpow radix2 1). apply bpow_le. lia. }
  replace (bpow radix2 (-60)) with (/ 1152921504606846976) in Va by (cbn; lra). replace (bpow radix2 (-70)) with (/ 1180591620717411303424) in Vb by (cbn; lra).
  change (bpow radix2 0) with 1 in Vc. replace (bpow radix2 (-1)) with (/ 2) in Vd by (cbn; lra).
  assert (Sa : ordinary_spacing (dnum 1 (-60))) by (apply S; [ exact Fa | rewrite Va, Rabs_pos_eq; lra ]).
  assert (Sb : ordinary_spacing (dnum 1 (-70))) by (apply S; [ exact Fb | rewrite Vb, Rabs_pos_eq; lra ]).
  assert (L : Rabs (dval (dnum 1 (-60)) - dval (dnum 1 (-70))) <= two_to (-52) - two_to (-105)) by (rewrite Va, Vb, Rabs_pos_eq; [ unfold two_to; cbn; lra | lra ]).
  split.
  - split; [ exact Sa | split; [ exact Sb | split; [ exact L | ] ] ]. apply eqb64_yes; assumption.
  - split; [ apply S; [ exact Fc | rewrite Vc, Rabs_pos_eq; lra ] | ]. split; [ apply S; [ exact Fd | rewrite Vd, Rabs_pos_eq; lra ] | ].
    split; [ rewrite Vc; lra | split; [ rewrite Vd; lra | reflexivity ] ].
Qed.
