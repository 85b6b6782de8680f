(** The text of a number reads as that number. *)
From Coq Require Import ZArith Reals Lra Lia List String Ascii.
From Flocq Require Import Core BinarySingleNaN.
From Verif.Base Require Import Float.
From Verif.Model Require Import NumberText.
Import ListNotations.
Local Open Scope string_scope.
Local Open Scope bool_scope.
Local Open Scope Z_scope.

(** ** Digits as text *)
Lemma sapp_assoc a b c : ((a ++ b) ++ c = a ++ (b ++ c))%string.
Proof. induction a as [|x a IH]; cbn; [ reflexivity | rewrite IH; reflexivity ]. Qed.
Lemma sapp_nil a : (a ++ "" = a)%string.
Proof. induction a as [|x a IH]; cbn; [ reflexivity | rewrite IH; reflexivity ]. Qed.
Lemma slen_app a b : String.length (a ++ b) = (String.length a + String.length b)%nat.
Proof. induction a as [|x a IH]; cbn; [ reflexivity | rewrite IH; reflexivity ]. Qed.
Lemma digit_of_digit d : 0 <= d < 10 -> digit_of (digit d) = Some d.
Proof.
  intros H. assert (d = 0 \/ d = 1 \/ d = 2 \/ d = 3 \/ d = 4 \/ d = 5 \/ d = 6 \/ d = 7 \/ d = 8 \/ d = 9) as C by lia.
  destruct C as [->|[->|[->|[->|[->|[->|[->|[->|[->| ->]]]]]]]]]; reflexivity.
Qed.
Fixpoint all_digits (s : string) : Prop :=
  match s with EmptyString => True | String c r => digit_of c <> None /\ all_digits r end.
Definition stops (s : string) : Prop := match s with EmptyString => True | String c _ => digit_of c = None end.
Fixpoint val (acc : Z) (s : string) : Z :=
  match s with EmptyString => acc | String c r => match digit_of c with Some d => val (10 * acc + d) r | None => acc end end.
Definition len (s : string) : Z := Z.of_nat (String.length s).
Lemma all_digits_app a b : all_digits (a ++ b) <-> all_digits a /\ all_digits b.
Proof. induction a as [|x a IH]; cbn; [ tauto | rewrite IH; tauto ]. Qed.
Lemma val_acc s : all_digits s -> forall acc, val acc s = acc * 10 ^ len s + val 0 s.
Proof.
  induction s as [|c s IH]; intros A acc; cbn [val]; [ unfold len; cbn; lia | ]. destruct A as [A1 A2].
  destruct (digit_of c) as [d|]; [ | congruence ]. rewrite (IH A2 (10 * acc + d)), (IH A2 (10 * 0 + d)).
  unfold len. cbn [String.length]. rewrite Nat2Z.inj_succ, Z.pow_succ_r by lia. ring.
Qed.
Lemma val_app a b acc : all_digits a -> val acc (a ++ b) = val (val acc a) b.
Proof.
  revert acc. induction a as [|x a IH]; intros acc A; cbn; [ reflexivity | ]. destruct A as [A1 A2].
  destruct (digit_of x); [ apply IH, A2 | congruence ].
Qed.
Lemma read_digits_all s rest : all_digits s -> stops rest -> forall acc n,
  read_digits acc n (s ++ rest) = (val acc s, n + len s, rest).
Proof.
  intros A St. induction s as [|c s IH]; intros acc n; cbn.
  - unfold len. cbn. rewrite Z.add_0_r. destruct rest as [|c r]; [ reflexivity | ]. cbn in St |- *. rewrite St. reflexivity.
  - destruct A as [A1 A2]. destruct (digit_of c); [ | congruence ]. rewrite IH by exact A2. f_equal. f_equal.
    unfold len. cbn [String.length]. lia.
Qed.
Lemma digits_len c : forall k, String.length (digits c k) = c.
Proof. induction c as [|c IH]; intros k; cbn; [ reflexivity | ]. rewrite slen_app, IH. cbn. lia. Qed.
Lemma digits_all c : forall k, all_digits (digits c k).
Proof.
  induction c as [|c IH]; intros k; cbn; [ exact I | ]. apply all_digits_app. split; [ apply IH | ]. cbn.
  rewrite digit_of_digit by (apply Z.mod_pos_bound; lia). split; [ discriminate | exact I ].
Qed.
Lemma digits_val c : forall k, 0 <= k -> val 0 (digits c k) = k mod 10 ^ Z.of_nat c.
Proof.
  induction c as [|c IH]; intros k Hk.
  - cbn. rewrite Z.mod_1_r. reflexivity.
  - cbn [digits]. rewrite val_app by apply digits_all. rewrite IH by (apply Z.div_pos; lia).
    cbn [val]. rewrite digit_of_digit by (apply Z.mod_pos_bound; lia).
    rewrite Nat2Z.inj_succ, Z.pow_succ_r by lia.
    rewrite (Z.rem_mul_r k 10 (10 ^ Z.of_nat c)); [ ring | lia | ]. apply Z.pow_pos_nonneg; lia.
Qed.
Lemma zeros_all j : all_digits (zeros j).
Proof. induction j; cbn; [ exact I | split; [ discriminate | assumption ] ]. Qed.
Lemma zeros_len j : len (zeros j) = Z.of_nat j.
Proof. unfold len. f_equal. induction j; cbn; congruence. Qed.
Lemma zeros_val j : val 0 (zeros j) = 0.
Proof. induction j; cbn; auto. Qed.
Lemma zeros_snoc j : (zeros j ++ "0" = zeros (S j))%string.
Proof. induction j as [|j IH]; [ reflexivity | ]. change (String "0" (zeros j ++ "0") = String "0" (zeros (S j))). rewrite IH. reflexivity. Qed.
Lemma strip_zeros s : exists j, (s = strip s ++ zeros j)%string.
Proof.
  induction s as [|c s [j IH]]; [ exists O; reflexivity | ]. cbn [strip].
  destruct (strip s) as [|c' r] eqn:E.
  - destruct (c =? "0")%char eqn:Ec.
    + apply Ascii.eqb_eq in Ec. subst c. exists (S j). cbn in IH |- *. rewrite <- IH. reflexivity.
    + exists j. cbn in IH |- *. rewrite <- IH. reflexivity.
  - exists j. change (String c s = String c (String c' r ++ zeros j)). rewrite <- IH. reflexivity.
Qed.
Lemma substring_0 s : forall n, String.length s = n -> String.substring 0 n s = s.
Proof. induction s as [|c s IH]; intros [|n] H; try discriminate; cbn; [ reflexivity | ]. rewrite IH by (cbn in H; lia). reflexivity. Qed.
Lemma substring_split s : forall a, (a <= String.length s)%nat ->
  (s = String.substring 0 a s ++ String.substring a (String.length s - a) s)%string.
Proof.
  induction s as [|c s IH]; intros [|a] H; cbn in *; try reflexivity; try lia.
  - f_equal. symmetry. apply substring_0. reflexivity.
  - f_equal. apply IH. lia.
Qed.
Lemma substring_len s : forall a b, (a + b <= String.length s)%nat -> String.length (String.substring a b s) = b.
Proof.
  induction s as [|c s IH]; intros [|a] [|b] H; cbn in *; try lia; try reflexivity.
  - rewrite IH; lia.
  - rewrite IH; lia.
  - rewrite IH; lia.
Qed.

(** ** Reading what was written *)
Notation pow10 := (bpow ten).
Definition after_number (rest : string) : Prop := rest = EmptyString \/ exists r, rest = String "e" r.
Lemma after_stops rest : after_number rest -> stops rest.
Proof. intros [-> | [r ->]]; [ exact I | reflexivity ]. Qed.
Lemma pow10_Z k : 0 <= k -> IZR (10 ^ k) = pow10 k.
Proof. intros H. rewrite <- IZR_Zpower by exact H. reflexivity. Qed.

(** The digits of [with_point whole part] stand for the integer [whole part] and [len part] places. *)
Lemma point_read whole part rest : all_digits whole -> all_digits part -> after_number rest -> whole <> EmptyString ->
  exists m n1 n2 s1,
    read_digits 0 0 (with_point whole part ++ rest) = s1 /\
    (let '(m0, n0, s) := s1 in
     match s with
     | String c r => if (c =? ".")%char then read_digits m0 0 r else (m0, 0, s)
     | EmptyString => (m0, 0, s)
     end = (m, n2, rest) /\ n0 = n1) /\
    0 < n1 /\ 0 <= n2 /\ 0 <= m /\
    (IZR m * pow10 (- n2) = IZR (val 0 (whole ++ part)) * pow10 (- len part))%R.
Proof.
  intros AW AP AR NW. pose proof (after_stops _ AR) as St. destruct (strip_zeros part) as [j Hj].
  assert (AS : all_digits (strip part)) by (rewrite Hj in AP; apply all_digits_app in AP; apply AP).
  assert (LW : 0 < len whole) by (unfold len; destruct whole; cbn; [ congruence | lia ]).
  assert (NN : forall s acc, 0 <= acc -> 0 <= val acc s).
  { induction s as [|c s IH]; intros acc Ha; cbn [val]; [ exact Ha | ]. destruct (digit_of c) as [d|] eqn:Ed; [ | exact Ha ]. apply IH.
    unfold digit_of in Ed. destruct ((_ <=? _) && _) eqn:Eb; [ | discriminate ]. injection Ed as <-. apply andb_prop in Eb as [E1 E2].
    apply Z.leb_le in E1. lia. }
  assert (LP : len part = len (strip part) + Z.of_nat j).
  { rewrite Hj at 1. unfold len. rewrite slen_app, Nat2Z.inj_add. f_equal. apply zeros_len. }
  assert (V : val 0 (whole ++ part) = val (val 0 whole) (strip part) * 10 ^ Z.of_nat j).
  { rewrite val_app by exact AW. rewrite Hj at 1. rewrite val_app by exact AS. rewrite (val_acc (zeros j)) by apply zeros_all.
    rewrite zeros_val, zeros_len. lia. }
  unfold with_point. destruct (strip part) as [|c r] eqn:E.
  - exists (val 0 whole), (len whole), 0. eexists. split; [ apply (read_digits_all whole rest AW St) | ].
    cbv beta iota. split.
    + split; [ | lia ]. destruct AR as [-> | [r' ->]]; reflexivity.
    + split; [ exact LW | split; [ lia | split; [ apply NN; lia | ] ] ]. rewrite V, LP. cbn [val]. unfold len at 1. cbn [String.length].
      rewrite mult_IZR, pow10_Z by lia. replace (- (Z.of_nat 0 + Z.of_nat j)) with (- Z.of_nat j) by lia.
      rewrite Rmult_assoc, <- bpow_plus. replace (Z.of_nat j + - Z.of_nat j) with (- 0) by lia. reflexivity.
  - rewrite <- E in *. clear E c r.
    exists (val (val 0 whole) (strip part)), (len whole), (len (strip part)). eexists. split.
    + rewrite sapp_assoc. apply (read_digits_all whole (String "." (strip part) ++ rest) AW). reflexivity.
    + cbv beta iota. split.
      * split; [ | lia ]. change (String "." (strip part) ++ rest)%string with (String "." (strip part ++ rest)). cbn -[read_digits strip].
        rewrite (read_digits_all _ _ AS St). reflexivity.
      * split; [ exact LW | split; [ unfold len; lia | split; [ apply NN, NN; lia | ] ] ]. rewrite V, LP.
        rewrite mult_IZR, pow10_Z by lia. rewrite Rmult_assoc, <- bpow_plus. f_equal. f_equal. lia.
Qed.

Lemma exponent_read e : exists eneg r x n3,
  exponent_text e = String "e" r /\ (let '(g, r') := read_sign r in g = eneg /\ read_digits 0 0 r' = (x, n3, EmptyString)) /\
  0 < n3 /\ (if eneg then - x else x) = e.
Proof.
  unfold exponent_text. set (c := Nat.max 2 (Z.to_nat (Zdigits ten (Z.abs e)))).
  assert (V : val 0 (digits c (Z.abs e)) = Z.abs e).
  { rewrite digits_val by lia. apply Z.mod_small. split; [ lia | ].
    destruct (Z.eq_dec e 0) as [->|N0]; [ apply Z.pow_pos_nonneg; lia | ].
    pose proof (Zdigits_correct ten (Z.abs e)) as [_ H]. rewrite Z.abs_eq in H by lia.
    pose proof (Zdigits_ge_0 ten (Z.abs e)). change (Zpower ten (Zdigits ten (Z.abs e))) with (10 ^ Zdigits ten (Z.abs e)) in H.
    eapply Z.lt_le_trans; [ exact H | ]. apply Z.pow_le_mono_r; lia. }
  assert (R : read_digits 0 0 (digits c (Z.abs e)) = (Z.abs e, Z.of_nat c, EmptyString)).
  { rewrite <- (sapp_nil (digits c (Z.abs e))). rewrite read_digits_all; [ | apply digits_all | exact I ]. unfold len. rewrite V, digits_len. reflexivity. }
  destruct (e <? 0) eqn:Es.
  - apply Z.ltb_lt in Es. exists true, (String "-" (digits c (Z.abs e))), (Z.abs e), (Z.of_nat c).
    split; [ reflexivity | split; [ cbn -[read_digits digits]; split; [ reflexivity | exact R ] | split; lia ] ].
  - apply Z.ltb_ge in Es. exists false, (String "+" (digits c (Z.abs e))), (Z.abs e), (Z.of_nat c).
    split; [ reflexivity | split; [ cbn -[read_digits digits]; split; [ reflexivity | exact R ] | split; lia ] ].
Qed.
Lemma sign_read (s : bool) t : t <> EmptyString -> (forall c r, t = String c r -> digit_of c <> None) ->
  read_sign ((if s then "-" else "") ++ t) = (s, t).
Proof.
  intros Ne Hd. destruct s; [ reflexivity | ]. destruct t as [|c r]; [ congruence | ]. cbn. specialize (Hd c r eq_refl).
  destruct (c =? "-")%char eqn:E1; [ apply Ascii.eqb_eq in E1; subst c; cbn in Hd; congruence | ].
  destruct (c =? "+")%char eqn:E2; [ apply Ascii.eqb_eq in E2; subst c; cbn in Hd; congruence | ]. reflexivity.
Qed.
Lemma point_first whole part rest : all_digits whole -> whole <> EmptyString ->
  with_point whole part ++ rest <> EmptyString /\ forall c r, (with_point whole part ++ rest)%string = String c r -> digit_of c <> None.
Proof.
  intros A N. destruct whole as [|c0 w]; [ congruence | ]. unfold with_point.
  destruct (strip part); cbn; (split; [ discriminate | intros c r [= <- _]; apply A ]).
Qed.
Lemma fixed_read s whole part : all_digits whole -> all_digits part -> whole <> EmptyString ->
  exists m e, read_decimal ((if s : bool then "-" else "") ++ with_point whole part) = Some (s, m, e) /\ 0 <= m /\
    (IZR m * pow10 e = IZR (val 0 (whole ++ part)) * pow10 (- len part))%R.
Proof.
  intros AW AP NW. destruct (point_first whole part "" AW NW) as [P1 P2]. rewrite sapp_nil in P1, P2.
  destruct (point_read whole part "" AW AP (or_introl eq_refl) NW) as (m & n1 & n2 & s1 & E1 & E2 & H1 & H2 & H3 & H4).
  rewrite sapp_nil in E1. exists m, (- n2). split; [ | split; [ exact H3 | exact H4 ] ].
  unfold read_decimal. rewrite sign_read by assumption. rewrite E1. destruct s1 as [[m0 n0] s1]. cbv beta iota in E2 |- *. destruct E2 as [E2 ->].
  rewrite E2. replace (n1 + n2 =? 0) with false by (symmetry; apply Z.eqb_neq; lia). reflexivity.
Qed.
Lemma scientific_read s whole part e : all_digits whole -> all_digits part -> whole <> EmptyString ->
  exists m e', read_decimal ((if s : bool then "-" else "") ++ (with_point whole part ++ exponent_text e)) = Some (s, m, e') /\ 0 <= m /\
    (IZR m * pow10 e' = IZR (val 0 (whole ++ part)) * pow10 (e - len part))%R.
Proof.
  intros AW AP NW. destruct (exponent_read e) as (eneg & r & x & n3 & Ee & Er & Hn3 & Hx).
  assert (AR : after_number (exponent_text e)) by (right; exists r; exact Ee).
  destruct (point_first whole part (exponent_text e) AW NW) as [P1 P2].
  destruct (point_read whole part (exponent_text e) AW AP AR NW) as (m & n1 & n2 & s1 & E1 & E2 & H1 & H2 & H3 & H4).
  exists m, (e - n2). split; [ | split; [ exact H3 | ] ].
  - unfold read_decimal. rewrite sign_read by assumption. rewrite E1. destruct s1 as [[m0 n0] s1]. cbv beta iota in E2 |- *. destruct E2 as [E2 ->].
    rewrite E2. replace (n1 + n2 =? 0) with false by (symmetry; apply Z.eqb_neq; lia). rewrite Ee. cbn [Ascii.eqb Bool.eqb orb].
    destruct (read_sign r) as [g r']. destruct Er as [-> Er]. cbn -[read_digits]. rewrite Er.
    replace (n3 =? 0) with false by (symmetry; apply Z.eqb_neq; lia). rewrite Hx. reflexivity.
  - unfold Z.sub. rewrite !bpow_plus. rewrite (Rmult_comm (pow10 e)), <- Rmult_assoc, H4. ring.
Qed.
Lemma text_read (s : bool) p k e : (1 <= p)%nat -> 0 <= k < 10 ^ Z.of_nat p ->
  exists m e', read_decimal ((if s then "-" else "") ++ decimal_text p k e) = Some (s, m, e') /\ 0 <= m /\
    (IZR m * pow10 e' = IZR k * pow10 (e - Z.of_nat p + 1))%R.
Proof.
  intros Hp Hk. unfold decimal_text, substr. set (ds := digits p k).
  assert (AD : all_digits ds) by apply digits_all. assert (LD : String.length ds = p) by apply digits_len.
  assert (VD : val 0 ds = k) by (unfold ds; rewrite digits_val by lia; apply Z.mod_small; exact Hk).
  destruct ((-4 <=? e) && (e <? Z.of_nat p)) eqn:Eb.
  - apply andb_prop in Eb as [E1 E2]. apply Z.leb_le in E1. apply Z.ltb_lt in E2. destruct (0 <=? e) eqn:E0.
    + apply Z.leb_le in E0. set (a := (Z.to_nat e + 1)%nat).
      pose proof (substring_split ds a ltac:(unfold a; lia)) as Sp. rewrite LD in Sp.
      assert (AA : all_digits (String.substring 0 a ds) /\ all_digits (String.substring a (p - a) ds)) by (rewrite Sp in AD; apply all_digits_app, AD).
      assert (L1 : String.length (String.substring 0 a ds) = a) by (apply substring_len; unfold a; lia).
      assert (L2 : String.length (String.substring a (p - a) ds) = (p - a)%nat) by (apply substring_len; unfold a; lia).
      destruct (fixed_read s (String.substring 0 a ds) (String.substring a (p - a) ds)) as (m & e' & Er & Hm & Hv); try apply AA.
      { intros H0. rewrite H0 in L1. unfold a in L1. cbn in L1. lia. }
      exists m, e'. split; [ exact Er | split; [ exact Hm | ] ]. rewrite Hv, <- Sp, VD. f_equal. f_equal. unfold len. rewrite L2. unfold a. lia.
    + apply Z.leb_gt in E0.
      destruct (fixed_read s "0" (zeros (Z.to_nat (- e - 1)) ++ ds)) as (m & e' & Er & Hm & Hv).
      { split; [ discriminate | exact I ]. } { apply all_digits_app. split; [ apply zeros_all | exact AD ]. } { discriminate. }
      exists m, e'. split; [ exact Er | split; [ exact Hm | ] ]. rewrite Hv.
      replace (val 0 ("0" ++ (zeros (Z.to_nat (- e - 1)) ++ ds))) with k.
      * f_equal. f_equal. unfold len. rewrite slen_app, LD. rewrite Nat2Z.inj_add. fold (len (zeros (Z.to_nat (- e - 1)))). rewrite zeros_len. lia.
      * cbn [append val]. change (digit_of "0") with (Some 0). cbv beta iota. change (10 * 0 + 0) with 0.
        rewrite val_app by apply zeros_all. rewrite zeros_val, VD. reflexivity.
  - pose proof (substring_split ds 1 ltac:(lia)) as Sp. rewrite LD in Sp.
    assert (AA : all_digits (String.substring 0 1 ds) /\ all_digits (String.substring 1 (p - 1) ds)) by (rewrite Sp in AD; apply all_digits_app, AD).
    assert (L1 : String.length (String.substring 0 1 ds) = 1%nat) by (apply substring_len; lia).
    assert (L2 : String.length (String.substring 1 (p - 1) ds) = (p - 1)%nat) by (apply substring_len; lia).
    destruct (scientific_read s (String.substring 0 1 ds) (String.substring 1 (p - 1) ds) e) as (m & e' & Er & Hm & Hv); try apply AA.
    { intros H0. rewrite H0 in L1. discriminate. }
    exists m, e'. split; [ exact Er | split; [ exact Hm | ] ]. rewrite Hv, <- Sp, VD. f_equal. f_equal. unfold len. rewrite L2. lia.
Qed.

(** ** The digits are those of the number *)
Local Open Scope R_scope.
Definition frac (n d : Z) : R := IZR n / IZR d.
Lemma pow10_pos k : 0 < pow10 k.
Proof. apply bpow_gt_0. Qed.
Lemma times10_ok n d k n' d' : (0 < d)%Z -> times10 n d k = (n', d') ->
  (0 < d')%Z /\ frac n' d' = frac n d * pow10 k /\ ((0 < n)%Z -> (0 < n')%Z).
Proof.
  intros Hd. unfold times10. assert (P : forall j, (0 <= j)%Z -> (0 < 10 ^ j)%Z) by (intros; apply Z.pow_pos_nonneg; lia).
  assert (Hd' : IZR d <> 0) by (apply not_0_IZR; lia).
  destruct (Z.leb_spec 0 k); intros [= <- <-].
  - split; [ exact Hd | split ].
    + unfold frac. rewrite mult_IZR, pow10_Z by assumption. field. exact Hd'.
    + intros Hn. apply Z.mul_pos_pos; [ exact Hn | apply P; lia ].
  - split; [ apply Z.mul_pos_pos; [ exact Hd | apply P; lia ] | split; [ | auto ] ].
    unfold frac. rewrite mult_IZR, pow10_Z by lia. rewrite bpow_opp. pose proof (pow10_pos k). field. split; [ exact Hd' | apply Rgt_not_eq, H0 ].
Qed.
Lemma frac_le a n d : (0 < d)%Z -> (IZR a <= frac n d <-> (a * d <= n)%Z).
Proof.
  intros Hd. assert (0 < IZR d) by (apply IZR_lt; exact Hd). unfold frac. split; intros H1.
  - apply le_IZR. rewrite mult_IZR. apply (Rmult_le_compat_r (IZR d)) in H1; [ | lra ]. field_simplify in H1; [ | lra ]. lra.
  - apply IZR_le in H1. rewrite mult_IZR in H1. apply (Rmult_le_reg_r (IZR d)); [ assumption | ]. field_simplify; lra.
Qed.
Lemma Zdigits_bpow n : (0 < n)%Z -> pow10 (Zdigits ten n - 1) <= IZR n < pow10 (Zdigits ten n).
Proof.
  intros Hn. pose proof (Zdigits_correct ten n) as [H1 H2]. rewrite Z.abs_eq in * by lia.
  pose proof (Zdigits_gt_0 ten n ltac:(lia)). split.
  - rewrite <- pow10_Z by lia. apply IZR_le. exact H1.
  - rewrite <- pow10_Z by lia. apply IZR_lt. exact H2.
Qed.
Lemma decimal_exponent_ok n d : (0 < n)%Z -> (0 < d)%Z ->
  pow10 (decimal_exponent n d) <= frac n d < pow10 (decimal_exponent n d + 1).
Proof.
  intros Hn Hd. unfold decimal_exponent. set (g := (Zdigits ten n - Zdigits ten d)%Z).
  destruct (times10 n d (- g)) as [n' d'] eqn:E. destruct (times10_ok _ _ _ _ _ Hd E) as (Hd' & Hf & _).
  destruct (Zdigits_bpow n Hn) as [N1 N2]. destruct (Zdigits_bpow d Hd) as [D1 D2].
  assert (Pd : 0 < IZR d) by (apply IZR_lt; exact Hd). assert (Pn : 0 < IZR n) by (apply IZR_lt; exact Hn).
  assert (Lo : pow10 (g - 1) < frac n d).
  { unfold frac. apply (Rmult_lt_reg_r (IZR d)); [ exact Pd | ]. unfold Rdiv. rewrite Rmult_assoc, Rinv_l, Rmult_1_r by lra.
    apply Rlt_le_trans with (pow10 (g - 1) * pow10 (Zdigits ten d)).
    - apply Rmult_lt_compat_l; [ apply pow10_pos | exact D2 ].
    - rewrite <- bpow_plus. replace (g - 1 + Zdigits ten d)%Z with (Zdigits ten n - 1)%Z by (unfold g; lia). exact N1. }
  assert (Hi : frac n d < pow10 (g + 1)).
  { unfold frac. apply (Rmult_lt_reg_r (IZR d)); [ exact Pd | ]. unfold Rdiv. rewrite Rmult_assoc, Rinv_l, Rmult_1_r by lra.
    apply Rlt_le_trans with (pow10 (g + 1) * pow10 (Zdigits ten d - 1)).
    - rewrite <- bpow_plus. replace (g + 1 + (Zdigits ten d - 1))%Z with (Zdigits ten n) by (unfold g; lia). exact N2.
    - apply Rmult_le_compat_l; [ apply Rlt_le, pow10_pos | exact D1 ]. }
  assert (C : (d' <= n')%Z <-> pow10 g <= frac n d).
  { pose proof (frac_le 1 n' d' Hd') as Q. rewrite Hf, bpow_opp, Z.mul_1_l in Q. rewrite <- Q. pose proof (pow10_pos g) as Pg. split; intros H1.
    - apply (Rmult_le_compat_r (pow10 g)) in H1; [ | lra ]. rewrite Rmult_assoc, Rinv_l in H1 by lra. lra.
    - apply (Rmult_le_reg_r (pow10 g)); [ exact Pg | ]. rewrite Rmult_assoc, Rinv_l by lra. lra. }
  destruct (Z.leb_spec d' n') as [H1|H1].
  - split; [ apply C, H1 | exact Hi ].
  - split; [ lra | ]. replace (g - 1 + 1)%Z with g by lia. apply Rnot_le_lt. intros H2. apply C in H2. lia.
Qed.
Lemma nearest_even_ok n d : (0 < d)%Z ->
  Rabs (IZR (nearest_even n d) - frac n d) <= / 2 /\ (n / d <= nearest_even n d <= n / d + 1)%Z /\
  ((n mod d = 0)%Z -> nearest_even n d = (n / d)%Z).
Proof.
  intros Hd. assert (Pd : 0 < IZR d) by (apply IZR_lt; exact Hd).
  pose proof (Z.div_mod n d ltac:(lia)) as Dm. pose proof (Z.mod_pos_bound n d Hd) as Mb. unfold nearest_even.
  set (q := (n / d)%Z) in *. set (r := (n mod d)%Z) in *.
  assert (F : frac n d = IZR q + IZR r / IZR d) by (unfold frac; rewrite Dm, plus_IZR, mult_IZR; field; lra).
  assert (Hq : forall z, (z = 0 \/ z = 1)%Z -> ((z = 0)%Z -> (2 * r <= d)%Z) -> ((z = 1)%Z -> (d <= 2 * r)%Z) -> Rabs (IZR (q + z) - frac n d) <= / 2).
  { intros z Hz H0 H1. rewrite F, plus_IZR. assert (0 <= IZR r) by (apply IZR_le; lia). assert (IZR r < IZR d) by (apply IZR_lt; lia).
    apply Rabs_le. destruct Hz as [-> | ->].
    - specialize (H0 eq_refl). apply IZR_le in H0. rewrite mult_IZR in H0.
      assert (0 <= IZR r / IZR d <= / 2); [ | simpl; lra ]. split; [ apply Rmult_le_pos; [ lra | apply Rlt_le, Rinv_0_lt_compat, Pd ] | ].
      apply (Rmult_le_reg_r (IZR d)); [ exact Pd | ]. unfold Rdiv. rewrite Rmult_assoc, Rinv_l by lra. lra.
    - specialize (H1 eq_refl). apply IZR_le in H1. rewrite mult_IZR in H1.
      assert (/ 2 <= IZR r / IZR d <= 1); [ | simpl; lra ]. split; apply (Rmult_le_reg_r (IZR d)); try exact Pd; unfold Rdiv; rewrite Rmult_assoc, Rinv_l by lra; lra. }
  destruct (Z.compare_spec (2 * r) d) as [E|E|E].
  - destruct (Z.even q); (split; [ | split; [ lia | intros; try lia ] ]).
    + rewrite <- (Z.add_0_r q) at 1. apply Hq; lia.
    + apply Hq; lia.
  - split; [ rewrite <- (Z.add_0_r q) at 1; apply Hq; lia | split; [ lia | reflexivity ] ].
  - split; [ apply Hq; lia | split; [ lia | lia ] ].
Qed.
Lemma decimal_ok p n d k e : (1 <= p)%Z -> (0 < n)%Z -> (0 < d)%Z -> decimal p n d = (k, e) ->
  (10 ^ (p - 1) <= k < 10 ^ p)%Z /\
  Rabs (IZR k * pow10 (e - p + 1) - frac n d) <= / 2 * pow10 (1 - p) * frac n d.
Proof.
  intros Hp Hn Hd. unfold decimal. set (e0 := decimal_exponent n d). destruct (decimal_exponent_ok n d Hn Hd) as [L U]. fold e0 in L, U.
  destruct (times10 n d (p - 1 - e0)) as [n' d'] eqn:E. destruct (times10_ok _ _ _ _ _ Hd E) as (Hd' & Hf & _).
  destruct (nearest_even_ok n' d' Hd') as (Hr & Hb & _). set (k0 := nearest_even n' d') in *.
  assert (B1 : (10 ^ (p - 1) <= k0)%Z).
  { apply Z.le_trans with (n' / d')%Z; [ | apply Hb ]. apply Z.div_le_lower_bound; [ exact Hd' | ]. rewrite Z.mul_comm. apply frac_le; [ exact Hd' | ].
    rewrite Hf, pow10_Z by lia. replace (p - 1)%Z with (e0 + (p - 1 - e0))%Z at 1 by lia. rewrite bpow_plus.
    apply Rmult_le_compat_r; [ apply Rlt_le, pow10_pos | exact L ]. }
  assert (B2 : (k0 <= 10 ^ p)%Z).
  { assert (n' / d' < 10 ^ p)%Z; [ | lia ]. apply Z.div_lt_upper_bound; [ exact Hd' | ]. apply Z.nle_gt. intros H. rewrite Z.mul_comm in H.
    apply (frac_le _ _ _ Hd') in H. rewrite Hf, pow10_Z in H by lia. replace p with (e0 + 1 + (p - 1 - e0))%Z in H at 1 by lia. rewrite bpow_plus in H.
    apply Rmult_le_reg_r in H; [ | apply pow10_pos ]. lra. }
  assert (V : Rabs (IZR k0 * pow10 (e0 - p + 1) - frac n d) <= / 2 * pow10 (1 - p) * frac n d).
  { replace (IZR k0 * pow10 (e0 - p + 1) - frac n d) with ((IZR k0 - frac n' d') * pow10 (e0 - p + 1)).
    - rewrite Rabs_mult, (Rabs_pos_eq (pow10 _)) by (apply Rlt_le, pow10_pos).
      replace (/ 2 * pow10 (1 - p) * frac n d) with (/ 2 * (pow10 (1 - p) * frac n d)) by ring.
      apply Rmult_le_compat; [ apply Rabs_pos | apply Rlt_le, pow10_pos | exact Hr | ].
      replace (e0 - p + 1)%Z with (1 - p + e0)%Z by lia. rewrite bpow_plus. apply Rmult_le_compat_l; [ apply Rlt_le, pow10_pos | exact L ].
    - rewrite Hf. rewrite Rmult_minus_distr_r, Rmult_assoc, <- bpow_plus. replace (p - 1 - e0 + (e0 - p + 1))%Z with 0%Z by lia. cbn. ring. }
  destruct (Z.eqb_spec k0 (10 ^ p)%Z) as [Ek|Ek]; intros [= <- <-].
  - split; [ split; [ lia | apply Z.pow_lt_mono_r; lia ] | ].
    replace (IZR (10 ^ (p - 1)) * pow10 (e0 + 1 - p + 1)) with (IZR k0 * pow10 (e0 - p + 1)); [ exact V | ].
    rewrite Ek, !pow10_Z by lia. rewrite <- !bpow_plus. f_equal. lia.
  - split; [ lia | exact V ].
Qed.
Lemma fraction_ok m e n d : fraction m e = (n, d) -> (0 < n)%Z /\ (0 < d)%Z /\ frac n d = IZR (Zpos m) * bpow radix2 e.
Proof.
  unfold fraction. destruct (Z.leb_spec 0 e); intros E; apply pair_equal_spec in E as [<- <-].
  - split; [ apply Z.mul_pos_pos; [ lia | apply Z.pow_pos_nonneg; lia ] | split; [ lia | ] ].
    unfold frac. rewrite mult_IZR. change (2 ^ e)%Z with (Zpower radix2 e). rewrite IZR_Zpower by assumption. field.
  - split; [ lia | split; [ apply Z.pow_pos_nonneg; lia | ] ]. unfold frac. change (2 ^ (- e))%Z with (Zpower radix2 (- e)).
    rewrite IZR_Zpower by lia. rewrite bpow_opp. pose proof (bpow_gt_0 radix2 e). field. lra.
Qed.

(** ** The nearest double *)
Notation fexp64 := (SpecFloat.fexp 53 1024).
Lemma fexp64_FLT : forall e, fexp64 e = FLT_exp (-1074) 53 e.
Proof. intros e. reflexivity. Qed.
Definition is_double (v : R) : Prop := generic_format radix2 (FLT_exp (-1074) 53) v.
Lemma B2R_double (x : f64) : is_double (B2R x).
Proof. apply (@generic_format_B2R 53 1024). Qed.
Local Existing Instance prec64.
Local Existing Instance emax64.
Local Instance flt_valid : Valid_exp (FLT_exp (-1074) 53) := FLT_exp_valid (-1074) 53.
(** Two doubles differ by at least a 2^53th part. *)
Lemma gap_pos x y : is_double x -> is_double y -> 0 < x -> x <> y -> x * bpow radix2 (-53) <= Rabs (x - y).
Proof.
  intros Fx Fy Px N. pose proof (bpow_gt_0 radix2 (-53)) as B53.
  destruct (Rtotal_order x y) as [H|[H|H]]; [ | congruence | ].
  - assert (S : succ radix2 (FLT_exp (-1074) 53) x <= y) by (apply succ_le_lt; try assumption; auto with typeclass_instances).
    rewrite succ_eq_pos in S by lra. pose proof (ulp_FLT_gt radix2 (-1074) 53 x) as U. rewrite (Rabs_pos_eq x) in U by lra.
    rewrite Rabs_left by lra. change (- (53))%Z with (-53)%Z in U. lra.
  - set (p := pred radix2 (FLT_exp (-1074) 53) x).
    assert (S : y <= p) by (apply pred_ge_gt; try assumption; auto with typeclass_instances).
    assert (Fp : is_double p) by (apply generic_format_pred; [ apply flt_valid | assumption ]).
    assert (P0 : 0 <= p) by (apply pred_ge_0; try assumption; auto with typeclass_instances).
    assert (E : p + ulp radix2 (FLT_exp (-1074) 53) p = x) by (apply pred_plus_ulp; try assumption; auto with typeclass_instances).
    pose proof (ulp_FLT_gt radix2 (-1074) 53 p) as U. rewrite (Rabs_pos_eq p) in U by lra. change (- (53))%Z with (-53)%Z in U.
    rewrite Rabs_pos_eq by lra. set (u := ulp radix2 (FLT_exp (-1074) 53) p) in *. apply Rle_trans with u; [ | lra ].
    (* p is a multiple of u, less than 2^53 of them *)
    assert (Up : 0 < u) by (apply Rle_lt_trans with (p * bpow radix2 (-53)); [ apply Rmult_le_pos; lra | exact U ]).
    assert (exists z, p = IZR z * u) as [z Hz].
    { destruct (Req_dec p 0) as [Z0|Z0]; [ exists 0%Z; rewrite Z0; ring | ].
      exists (Ztrunc (scaled_mantissa radix2 (FLT_exp (-1074) 53) p)). unfold is_double, generic_format in Fp. rewrite Fp at 1. unfold F2R. cbn [Fnum Fexp]. unfold u. rewrite ulp_neq_0 by exact Z0. reflexivity. }
    assert (z < 2 ^ 53)%Z.
    { apply lt_IZR. change (2 ^ 53)%Z with (Zpower radix2 53). rewrite IZR_Zpower by lia.
      apply (Rmult_lt_reg_r (u * bpow radix2 (-53))); [ apply Rmult_lt_0_compat; assumption | ].
      replace (bpow radix2 53 * (u * bpow radix2 (-53))) with (u * (bpow radix2 53 * bpow radix2 (-53))) by ring. rewrite <- bpow_plus. cbn [Z.add bpow Z.opp].
      replace (bpow radix2 (53 + -53)) with 1 by reflexivity. rewrite Rmult_1_r, <- Rmult_assoc, <- Hz. exact U. }
    assert (Hx : x = IZR (z + 1) * u) by (rewrite <- E, Hz at 1; rewrite plus_IZR; ring).
    rewrite Hx. apply Rle_trans with (bpow radix2 53 * u * bpow radix2 (-53)).
    + apply Rmult_le_compat_r; [ lra | ]. apply Rmult_le_compat_r; [ lra | ]. rewrite <- IZR_Zpower by lia. apply IZR_le. change (Zpower radix2 53) with (2 ^ 53)%Z. lia.
    + right. replace (bpow radix2 53 * u * bpow radix2 (-53)) with (u * (bpow radix2 53 * bpow radix2 (-53))) by ring. rewrite <- bpow_plus.
      replace (bpow radix2 (53 + -53)) with 1 by reflexivity. ring.
Qed.
Lemma gap x y : is_double x -> is_double y -> x <> y -> Rabs x * bpow radix2 (-53) <= Rabs (x - y).
Proof.
  intros Fx Fy N. destruct (Rtotal_order x 0) as [H|[H|H]].
  - rewrite Rabs_left by exact H. replace (Rabs (x - y)) with (Rabs (- x - - y)) by (rewrite <- Rabs_Ropp; f_equal; ring).
    apply gap_pos; try (apply generic_format_opp; assumption); lra.
  - rewrite H, Rabs_R0, Rmult_0_l. apply Rabs_pos.
  - rewrite Rabs_pos_eq by lra. apply gap_pos; assumption.
Qed.
Lemma round_back x v : is_double x -> Rabs (v - x) < / 2 * bpow radix2 (-53) * Rabs x -> round radix2 (FLT_exp (-1074) 53) ZnearestE v = x.
Proof.
  intros Fx C. set (y := round _ _ _ v). assert (Fy : is_double y) by (apply generic_format_round; [ apply flt_valid | apply valid_rnd_N ]).
  destruct (Req_dec y x) as [|N]; [ assumption | exfalso ].
  pose proof (gap x y Fx Fy ltac:(congruence)) as G.
  destruct (round_N_pt radix2 (FLT_exp (-1074) 53) (fun z => negb (Z.even z)) v) as [_ H]. specialize (H x Fx). fold y in H.
  assert (Rabs (x - y) <= Rabs (v - x) + Rabs (y - v)).
  { replace (x - y) with (- (v - x) + - (y - v)) by ring. eapply Rle_trans; [ apply Rabs_triang | ]. rewrite !Rabs_Ropp. lra. }
  assert (Rabs (x - v) = Rabs (v - x)) by (rewrite <- Rabs_Ropp; f_equal; ring). lra.
Qed.
(** Reading rounds a fraction; a result too large is no finite double. *)
Definition signed (s : bool) (v : R) : R := if s then - v else v.
Lemma nearest_double_ok s n d : let v := round radix2 (FLT_exp (-1074) 53) ZnearestE (signed s (frac (Zpos n) (Zpos d))) in
  Rabs v < bpow radix2 1024 -> B2R (nearest_double s n d) = v /\ is_finite (nearest_double s n d) = true /\ Bsign (nearest_double s n d) = s.
Proof.
  intros v Hv. unfold nearest_double. pose proof (proj2 (@Bdiv_correct_aux 53 1024 prec64 emax64 mode_NE s n 0 false d 0)) as H.
  generalize (proj1 (@Bdiv_correct_aux 53 1024 prec64 emax64 mode_NE s n 0 false d 0)). intros Vb.
  replace (F2R (Float radix2 (cond_Zopp s (Zpos n)) 0) / F2R (Float radix2 (cond_Zopp false (Zpos d)) 0)) with (signed s (frac (Zpos n) (Zpos d))) in H.
  2:{ unfold F2R, signed, frac. cbn [Fnum Fexp cond_Zopp bpow]. destruct s; cbn [cond_Zopp]; [ change (Z.neg n) with (- Z.pos n)%Z; rewrite opp_IZR | ]; field; apply not_0_IZR; lia. }
  change (round radix2 fexp64 (round_mode mode_NE) (signed s (frac (Zpos n) (Zpos d)))) with v in H.
  rewrite Rlt_bool_true in H by exact Hv. destruct H as (H1 & H2 & H3).
  rewrite B2R_SF2B, is_finite_SF2B, Bsign_SF2B. split; [ exact H1 | split; [ exact H2 | rewrite H3; apply Bool.xorb_false_r ] ].
Qed.

(** ** Round trip *)
Lemma decimal_double_ok s m e : (0 < m)%Z ->
  let v := round radix2 (FLT_exp (-1074) 53) ZnearestE (signed s (IZR m * pow10 e)) in
  Rabs v < bpow radix2 1024 -> B2R (decimal_double s m e) = v /\ is_finite (decimal_double s m e) = true /\ Bsign (decimal_double s m e) = s.
Proof.
  intros Hm. unfold decimal_double. destruct (times10 m 1 e) as [n d] eqn:E.
  destruct (times10_ok m 1 e n d ltac:(lia) E) as (Hd & Hf & Hn). specialize (Hn Hm).
  replace (IZR m * pow10 e) with (frac n d) by (rewrite Hf; unfold frac; field).
  destruct n as [|n|n]; try lia. destruct d as [|d|d]; try lia. apply nearest_double_ok.
Qed.
Lemma text_near p x : (1 <= p)%nat -> is_finite x = true -> B2R x <> 0 ->
  exists t m e, number_text p x = Some t /\ read_decimal t = Some (Bsign x, m, e) /\ (0 < m)%Z /\
    Rabs (signed (Bsign x) (IZR m * pow10 e) - B2R x) <= / 2 * pow10 (1 - Z.of_nat p) * Rabs (B2R x).
Proof.
  intros Hp Fx Nx. destruct x as [s|s| |s m0 e0 Hb]; try discriminate; [ elim Nx; reflexivity | ]. cbn [number_text Bsign].
  destruct (fraction m0 e0) as [n d] eqn:Ef. destruct (fraction_ok _ _ _ _ Ef) as (Hn & Hd & Hv).
  destruct (decimal (Z.of_nat p) n d) as [k e10] eqn:Ed. destruct (decimal_ok (Z.of_nat p) n d k e10 ltac:(lia) Hn Hd Ed) as [Hk Hr].
  assert (K0 : (0 < k)%Z) by (apply Z.lt_le_trans with (10 ^ (Z.of_nat p - 1))%Z; [ apply Z.pow_pos_nonneg; lia | apply Hk ]).
  destruct (text_read s p k e10 Hp ltac:(lia)) as (m & e & Er & Hm & Hmv).
  eexists. exists m, e. split; [ reflexivity | split; [ exact Er | split ] ].
  - destruct (Z.eq_dec m 0) as [->|]; [ | lia ]. exfalso. rewrite Rmult_0_l in Hmv. symmetry in Hmv. apply Rmult_integral in Hmv as [H|H].
    + apply eq_IZR in H. lia.
    + pose proof (pow10_pos (e10 - Z.of_nat p + 1)). lra.
  - rewrite Hmv. assert (Hx : B2R (B754_finite s m0 e0 Hb : f64) = signed s (frac n d)).
    { rewrite Hv. cbn. unfold F2R. cbn [Fnum Fexp]. destruct s; cbn [cond_Zopp signed]; [ | reflexivity ].
      change (Z.neg m0) with (- Z.pos m0)%Z. rewrite opp_IZR. ring. }
    rewrite Hx. assert (Pf : 0 < frac n d) by (rewrite Hv; apply Rmult_lt_0_compat; [ apply IZR_lt; lia | apply bpow_gt_0 ]).
    destruct s; cbn [signed].
    + rewrite Rabs_Ropp, (Rabs_pos_eq (frac n d)) by lra. replace (- (IZR k * pow10 (e10 - Z.of_nat p + 1)) - - frac n d)
        with (- (IZR k * pow10 (e10 - Z.of_nat p + 1) - frac n d)) by ring. rewrite Rabs_Ropp. exact Hr.
    + rewrite (Rabs_pos_eq (frac n d)) by lra. exact Hr.
Qed.
Lemma zero_text p (x : f64) : is_finite x = true -> B2R x = 0 -> exists t, number_text p x = Some t /\ read_number t = Some x.
Proof.
  intros Fx Zx. destruct x as [s|s| |s m e Hb]; try discriminate.
  - destruct s; eexists; (split; [ reflexivity | ]); reflexivity.
  - exfalso. cbn in Zx. apply eq_0_F2R in Zx. destruct s; discriminate.
Qed.
Lemma finite_bound (x : f64) : Rabs (B2R x) < bpow radix2 1024.
Proof. apply (@abs_B2R_lt_emax 53 1024). Qed.
Lemma same_number p x : (17 <= p)%nat -> is_finite x = true -> exists t, number_text p x = Some t /\ read_number t = Some x.
Proof.
  intros Hp Fx. destruct (Req_dec (B2R x) 0) as [Z0|Z0]; [ apply zero_text; assumption | ].
  destruct (text_near p x ltac:(lia) Fx Z0) as (t & m & e & Et & Er & Hm & Hn). exists t. split; [ exact Et | ].
  unfold read_number. rewrite Er.
  assert (RB : round radix2 (FLT_exp (-1074) 53) ZnearestE (signed (Bsign x) (IZR m * pow10 e)) = B2R x).
  { apply round_back; [ apply B2R_double | ]. eapply Rle_lt_trans; [ exact Hn | ].
    apply Rmult_lt_compat_r; [ apply Rabs_pos_lt, Z0 | ]. apply Rmult_lt_compat_l; [ lra | ].
    apply Rle_lt_trans with (pow10 (-16)); [ apply bpow_le; lia | ].
    change (pow10 (-16)) with (/ pow10 16). change (bpow radix2 (-53)) with (/ bpow radix2 53).
    apply Rinv_lt_contravar; [ apply Rmult_lt_0_compat; apply bpow_gt_0 | ].
    rewrite <- !IZR_Zpower by lia. apply IZR_lt. reflexivity. }
  destruct (decimal_double_ok (Bsign x) m e Hm) as (D1 & D2 & D3); [ rewrite RB; apply finite_bound | ]. rewrite RB in D1.
  rewrite D2. f_equal. apply B2R_Bsign_inj; assumption.
Qed.
Lemma near_number p x : (1 <= p)%nat -> is_finite x = true -> Rabs (B2R x) < bpow radix2 1023 ->
  exists t y, number_text p x = Some t /\ read_number t = Some y /\ is_finite y = true /\ Bsign y = Bsign x /\
    Rabs (B2R y - B2R x) <= pow10 (1 - Z.of_nat p) * Rabs (B2R x).
Proof.
  intros Hp Fx Bx. destruct (Req_dec (B2R x) 0) as [Z0|Z0].
  { destruct (zero_text p x Fx Z0) as (t & H1 & H2). exists t, x. split; [ exact H1 | split; [ exact H2 | split; [ exact Fx | split; [ reflexivity | ] ] ] ].
    unfold Rminus. rewrite Rplus_opp_r, Z0, Rabs_R0. lra. }
  destruct (text_near p x Hp Fx Z0) as (t & m & e & Et & Er & Hm & Hn).
  set (v := signed (Bsign x) (IZR m * pow10 e)) in *. set (y := round radix2 (FLT_exp (-1074) 53) ZnearestE v).
  assert (P1 : pow10 (1 - Z.of_nat p) <= 1) by (change 1 with (pow10 0); apply bpow_le; lia).
  pose proof (pow10_pos (1 - Z.of_nat p)) as P2. pose proof (Rabs_pos_lt _ Z0) as P3.
  assert (Hy : Rabs (y - v) <= Rabs (B2R x - v)).
  { destruct (round_N_pt radix2 (FLT_exp (-1074) 53) (fun z => negb (Z.even z)) v) as [_ H]. apply (H (B2R x) (B2R_double x)). }
  assert (Hs : Rabs (B2R x - v) = Rabs (v - B2R x)) by (rewrite <- Rabs_Ropp; f_equal; ring).
  assert (Hyx : Rabs (y - B2R x) <= pow10 (1 - Z.of_nat p) * Rabs (B2R x)).
  { replace (y - B2R x) with ((y - v) + (v - B2R x)) by ring. eapply Rle_trans; [ apply Rabs_triang | ]. lra. }
  assert (By : Rabs y < bpow radix2 1024).
  { replace y with ((y - B2R x) + B2R x) by ring. eapply Rle_lt_trans; [ apply Rabs_triang | ].
    change (bpow radix2 1024) with (bpow radix2 (1 + 1023)). rewrite bpow_plus. change (bpow radix2 1) with 2.
    assert (pow10 (1 - Z.of_nat p) * Rabs (B2R x) <= 1 * Rabs (B2R x)) by (apply Rmult_le_compat_r; lra). lra. }
  destruct (decimal_double_ok (Bsign x) m e Hm) as (D1 & D2 & D3); [ exact By | ]. fold v in D1. fold y in D1.
  exists t, (decimal_double (Bsign x) m e). split; [ exact Et | ]. unfold read_number. rewrite Er, D2.
  split; [ reflexivity | split; [ reflexivity | split; [ exact D3 | ] ] ]. rewrite D1. exact Hyx.
Qed.
(** The double after 1 needs 17 digits. *)
Definition next_to_one : f64 := dnum (2 ^ 52 + 1) (-52).
Lemma sixteen_not_enough : exists x t y, is_finite x = true /\ number_text 16 x = Some t /\ read_number t = Some y /\ y <> x.
Proof.
  exists next_to_one, "1", (dint 1). split; [ reflexivity | split; [ reflexivity | split ] ].
  - assert (H : option_map B2SF (read_number "1") = Some (B2SF (dint 1))) by (vm_compute; reflexivity).
    destruct (read_number "1") as [y|]; [ | discriminate ]. f_equal. apply B2SF_inj. injection H as H. exact H.
  - intros H. apply (f_equal B2SF) in H. vm_compute in H. discriminate.
Qed.
