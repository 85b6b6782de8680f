(** What the program that tries the circle finder does with its arguments. *)
From Coq Require Import Reals ZArith Bool String Ascii List Lia.
From Verif.Base Require Import Geom Outcome.
From Verif.Model Require Import NumberText Targets Plugins FinderTest.
From Verif.Spec Require Import FinderTestSpec.
From Verif.Proofs Require Import NumberTextProofs.
Import ListNotations.
Local Open Scope Z_scope.

Lemma digit_inv c d : digit_of c = Some d -> c = digit d /\ 0 <= d <= 9.
Proof.
  unfold digit_of. set (n := Z.of_N (N_of_ascii c)). destruct (48 <=? n) eqn:A; [ | discriminate ]. destruct (n <=? 57) eqn:B; [ | discriminate ].
  intros [= <-]. apply Z.leb_le in A. apply Z.leb_le in B. split; [ | lia ].
  rewrite <- (ascii_N_embedding c). assert (E : N_of_ascii c = Z.to_N n) by (unfold n; rewrite N2Z.id; reflexivity). rewrite E. clearbody n.
  assert (C : n = 48 \/ n = 49 \/ n = 50 \/ n = 51 \/ n = 52 \/ n = 53 \/ n = 54 \/ n = 55 \/ n = 56 \/ n = 57) by lia.
  clear - C. destruct C as [->|[->|[->|[->|[->|[->|[->|[->|[->| ->]]]]]]]]]; reflexivity.
Qed.
Lemma no_digit_stops s : no_digit_first s <-> stops s.
Proof.
  unfold no_digit_first. destruct s as [|c r]; cbn.
  - split; [ auto | intros _ d r _ E; discriminate E ].
  - split.
    + intros H. destruct (digit_of c) as [d|] eqn:E; [ | reflexivity ]. apply digit_inv in E as [E D]. exfalso. apply (H d r D). congruence.
    + intros E d r' D X. injection X as -> _. rewrite digit_of_digit in E by lia. discriminate E.
Qed.
Lemma digits_read s : forall acc n a k rest, read_digits acc n s = (a, k, rest) ->
  exists ds, s = (number_text ds ++ rest)%string /\ Forall (fun d => 0 <= d <= 9) ds /\ stops rest /\ a = fold_left (fun a d => 10 * a + d) ds acc /\
    k = n + Z.of_nat (List.length ds).
Proof.
  induction s as [|c s IH]; intros acc n a k rest; cbn [read_digits].
  - intros [= <- <- <-]. exists []. cbn. repeat split; auto. lia.
  - destruct (digit_of c) as [d|] eqn:E.
    + intros H. apply IH in H as (ds & -> & F & St & -> & ->). apply digit_inv in E as [-> D]. exists (d :: ds). cbn [number_text fold_right append fold_left List.length].
      repeat split; auto. lia.
    + intros [= <- <- <-]. exists []. cbn. repeat split; auto. lia.
Qed.
Lemma digits_written ds rest : Forall (fun d => 0 <= d <= 9) ds -> stops rest -> forall acc n,
  read_digits acc n (number_text ds ++ rest) = (fold_left (fun a d => 10 * a + d) ds acc, n + Z.of_nat (List.length ds), rest).
Proof.
  intros F St. induction F as [|d ds D F IH]; intros acc n.
  - cbn. rewrite Z.add_0_r. destruct rest as [|c r]; [ reflexivity | ]. cbn in St |- *. rewrite St. reflexivity.
  - cbn [number_text fold_right append read_digits]. rewrite digit_of_digit by lia. fold (number_text ds). rewrite IH. cbn [fold_left List.length]. f_equal. f_equal. lia.
Qed.
Lemma space_is c : is_space c = true <-> In (nat_of_ascii c) [9; 10; 11; 12; 13; 32]%nat.
Proof. destruct c as [[] [] [] [] [] [] [] []]; cbv; intuition congruence. Qed.
Lemma space_skipped s : exists b, s = (b ++ skip_space s)%string /\ blanks b.
Proof.
  induction s as [|c s (b & E & B)]; cbn [skip_space]; [ exists EmptyString; split; [ reflexivity | constructor ] | ].
  destruct (is_space c) eqn:S.
  - exists (String c b). split; [ cbn; congruence | constructor; [ apply space_is, S | exact B ] ].
  - exists EmptyString. split; [ reflexivity | constructor ].
Qed.
Lemma blanks_skipped b s : blanks b -> (match s with String c _ => is_space c = false | EmptyString => True end) -> skip_space (b ++ s) = s.
Proof.
  intros B. induction b as [|c b IH]; cbn [append skip_space]; intros N.
  - destruct s as [|c s]; [ reflexivity | ]. cbn. rewrite N. reflexivity.
  - inversion B; subst. rewrite (proj2 (space_is c) H1). apply IH; assumption.
Qed.
Lemma digit_no_space d : 0 <= d <= 9 -> is_space (digit d) = false /\ (digit d =? "-")%char = false /\ (digit d =? "+")%char = false.
Proof.
  intros D. assert (C : d = 0 \/ d = 1 \/ d = 2 \/ d = 3 \/ d = 4 \/ d = 5 \/ d = 6 \/ d = 7 \/ d = 8 \/ d = 9) by lia.
  destruct C as [->|[->|[->|[->|[->|[->|[->|[->|[->| ->]]]]]]]]]; repeat split; reflexivity.
Qed.

Lemma stoi_reads s z : stoi s = Some z <-> begins_with_number s z /\ - 2 ^ 31 <= z < 2 ^ 31.
Proof.
  unfold stoi. split.
  - destruct (space_skipped s) as (b & E & B). destruct (read_sign (skip_space s)) as [neg s1] eqn:Sg.
    destruct (read_digits 0 0 s1) as [[m k] rest] eqn:D. destruct (Z.eqb_spec k 0) as [K|K]; [ discriminate | ].
    set (v := if neg then - m else m). destruct (Z.leb_spec (- 2 ^ 31) v); [ | discriminate ]. destruct (Z.ltb_spec v (2 ^ 31)); [ | discriminate ].
    cbn [andb]. intros [= <-]. split; [ | lia ]. apply digits_read in D as (ds & E1 & F & St & M & L).
    assert (Ds : decimal_digits ds) by (split; [ intros ->; cbn in L; lia | exact F ]).
    assert (Sign : exists sign, skip_space s = (sign ++ s1)%string /\ (sign = ""%string /\ neg = false \/ sign = "+"%string /\ neg = false \/ sign = "-"%string /\ neg = true)).
    { unfold read_sign in Sg. destruct (skip_space s) as [|c r]; [ injection Sg as <- <-; exists EmptyString; auto | ].
      destruct (Ascii.eqb_spec c "-"%char) as [->|N1]; [ injection Sg as <- <-; exists "-"%string; auto | ].
      destruct (Ascii.eqb_spec c "+"%char) as [->|N2]; [ injection Sg as <- <-; exists "+"%string; auto | ].
      injection Sg as <- <-. exists EmptyString. auto. }
    destruct Sign as (sign & E2 & Sn). exists b, sign, ds, rest. split; [ rewrite E, E2, E1; reflexivity | ].
    split; [ exact B | split; [ exact Ds | split; [ apply no_digit_stops, St | ] ] ]. unfold v, number_value. subst m.
    destruct Sn as [[-> ->]|[[-> ->]|[-> ->]]]; auto.
  - intros [(b & sign & ds & rest & -> & B & [Ne F] & N & V) L]. apply no_digit_stops in N.
    destruct ds as [|d ds]; [ congruence | ]. pose proof (Forall_inv F) as D. cbn beta in D. destruct (digit_no_space d D) as (D1 & D2 & D3).
    assert (Skip : skip_space (b ++ sign ++ number_text (d :: ds) ++ rest) = (sign ++ number_text (d :: ds) ++ rest)%string).
    { apply blanks_skipped; [ exact B | ]. destruct V as [[-> _]|[[-> _]|[-> _]]]; [ exact D1 | reflexivity | reflexivity ]. }
    rewrite Skip.
    assert (Sg : read_sign (sign ++ number_text (d :: ds) ++ rest) = (match sign with String c _ => Ascii.eqb c "-" | EmptyString => false end, (number_text (d :: ds) ++ rest)%string)).
    { destruct V as [[-> _]|[[-> _]|[-> _]]]; [ | reflexivity | reflexivity ]. cbn [append number_text fold_right read_sign]. rewrite D2, D3. reflexivity. }
    rewrite Sg, digits_written by assumption. cbn [List.length].
    destruct (Z.eqb_spec (0 + Z.of_nat (S (List.length ds))) 0); [ lia | ].
    assert (E : (if match sign with String c _ => Ascii.eqb c "-" | EmptyString => false end then - fold_left (fun a x => 10 * a + x) (d :: ds) 0
      else fold_left (fun a x => 10 * a + x) (d :: ds) 0) = z) by (destruct V as [[-> ->]|[[-> ->]|[-> ->]]]; reflexivity).
    cbv zeta. rewrite E.
    destruct (Z.leb_spec (- 2 ^ 31) z); [ | lia ]. destruct (Z.ltb_spec z (2 ^ 31)); [ reflexivity | lia ].
Qed.

Section Run.
Context {image : Type} (imread : string -> image) (find : circle_grid -> image -> res features)
  (show : circle_grid -> image -> features -> res unit) (what : exn -> string).
Lemma wrong_arguments args : List.length args <> 3%nat -> test_main imread find show what args = Returned 1 usage.
Proof. intros L. destruct args as [|a [|b [|c [|d r]]]]; try reflexivity. cbn in L. congruence. Qed.
Lemma status_zero path r c out status : test_main imread find show what [path; r; c] = Returned status out -> status = 0.
Proof.
  cbn [test_main]. destruct (stoi r); [ | discriminate ]. destruct (stoi c); [ | discriminate ]. destruct (_ || _); [ discriminate | ].
  destruct (find _ _) as [obs|e|]; [ | destruct (is_std e); [ congruence | discriminate ] | discriminate ].
  destruct (show _ _ _) as [u|e|]; [ congruence | destruct (is_std e); [ congruence | discriminate ] | discriminate ].
Qed.
Lemma unsigned_pos z : 0 < z < 2 ^ 31 -> to_unsigned z = Z.to_nat z /\ (0 < Z.to_nat z)%nat.
Proof. intros H. unfold to_unsigned. rewrite Z.mod_small by lia. lia. Qed.
Lemma positive_sizes r c rows cols : begins_with_number r rows -> begins_with_number c cols -> 0 < rows < 2 ^ 31 -> 0 < cols < 2 ^ 31 ->
  forall path, let target := CG (Z.to_nat rows) (Z.to_nat cols) (1 / 100)%R in
  (forall obs, find target (imread path) = Ok obs -> show target (imread path) obs = Ok tt ->
     test_main imread find show what [path; r; c] = Returned 0 ("Grid observed: Found " ++ Covariance.to_string (List.length obs) ++ " features!" ++ newline)%string) /\
  (forall e, find target (imread path) = Throw e -> e <> XmlRpcException ->
     test_main imread find show what [path; r; c] = Returned 0 (what e ++ newline)%string).
Proof.
  intros R C Hr Hc path target. unfold test_main.
  rewrite (proj2 (stoi_reads r rows)) by (split; [ exact R | lia ]). rewrite (proj2 (stoi_reads c cols)) by (split; [ exact C | lia ]).
  destruct (unsigned_pos rows Hr) as [-> Pr]. destruct (unsigned_pos cols Hc) as [-> Pc]. cbn [cg_rows cg_cols].
  destruct (Nat.eqb_spec (Z.to_nat cols) 0); [ lia | ]. destruct (Nat.eqb_spec (Z.to_nat rows) 0); [ lia | ]. cbn [orb]. fold target. split.
  - intros obs -> ->. reflexivity.
  - intros e -> N. destruct e; try reflexivity. congruence.
Qed.
Lemma bad_sizes path r c : (forall z, begins_with_number r z -> z < - 2 ^ 31 \/ z = 0 \/ 2 ^ 31 <= z) \/ (forall z, begins_with_number c z -> z < - 2 ^ 31 \/ z = 0 \/ 2 ^ 31 <= z) ->
  test_main imread find show what [path; r; c] = Aborted.
Proof.
  intros H. unfold test_main. destruct (stoi r) as [rows|] eqn:Er; [ | reflexivity ]. destruct (stoi c) as [cols|] eqn:Ec; [ | reflexivity ].
  apply stoi_reads in Er as [Br Lr]. apply stoi_reads in Ec as [Bc Lc].
  assert (Z : rows = 0 \/ cols = 0) by (destruct H as [H|H]; [ specialize (H _ Br) | specialize (H _ Bc) ]; lia).
  cbn [cg_rows cg_cols]. destruct Z as [-> | ->]; [ rewrite (orb_comm _ (Nat.eqb (to_unsigned 0) 0)) | ]; reflexivity.
Qed.
End Run.

Lemma begins_example : begins_with_number " 12x" 12 /\ begins_with_number "-3" (-3).
Proof.
  split.
  - exists " "%string, ""%string, [1; 2], "x"%string. split; [ reflexivity | ]. split; [ constructor; [ cbn; tauto | constructor ] | ]. split; [ split; [ discriminate | repeat constructor; lia ] | ].
    split; [ apply no_digit_stops; reflexivity | left; auto ].
  - exists ""%string, "-"%string, [3], ""%string. split; [ reflexivity | ]. split; [ constructor | ]. split; [ split; [ discriminate | repeat constructor; lia ] | ].
    split; [ apply no_digit_stops; exact I | right; right; auto ].
Qed.
Lemma run_example : test_main (image := unit) (fun _ => tt) (fun t _ => if Nat.eqb (cg_rows t) 5 then Ok [(0%nat, [V2 1 2]); (1%nat, [V2 3 2])] else Throw RuntimeError) (fun _ _ _ => Ok tt)
  (fun _ => "no grid"%string) ["image.png"; "5"; "7"]%string = Returned 0 ("Grid observed: Found 2 features!" ++ newline)%string.
Proof. reflexivity. Qed.
