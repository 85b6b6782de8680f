(** The characters of printed transforms and results. *)
From Coq Require Import Reals ZArith Arith Lia Lra Ascii String List.
From Flocq Require Import Core BinarySingleNaN.
From Verif.Base Require Import Float Geom Outcome.
From Verif.Model Require Import Pose Serialization Loaders NumberText PoseText DataSetText CovReport ParamText Print PrintText.
From Verif.Spec Require Import TextSpec ParamTextSpec YamlSpec PrintSpec DataSetTextSpec PrintTextSpec.
From Verif.Proofs Require Import GeomLemmas RotLemmas AngleAxisLemmas EulerProofs FloatLemmas NumberTextProofs DataSetTextProofs TextProofs ParamTextProofs.
Import ListNotations.
Local Open Scope string_scope.
Local Existing Instance prec64.
Local Existing Instance emax64.

(** ** The value of a text *)
Lemma two_1073 : (/ 2 ^ 1073 = bpow radix2 (-1073))%R.
Proof. change (bpow radix2 (-1073)) with (/ bpow radix2 1073)%R. f_equal. rewrite bpow_powerRZ. change (IZR radix2) with 2%R. rewrite pow_powerRZ. f_equal. Qed.
Lemma pow10_pow p : (pow10 (1 - Z.of_nat p) = 10 / 10 ^ p)%R.
Proof.
  unfold Z.sub. rewrite bpow_plus. change (bpow ten 1) with 10%R. unfold Rdiv. f_equal.
  rewrite bpow_opp. f_equal. rewrite bpow_powerRZ. change (IZR ten) with 10%R. rewrite pow_powerRZ. reflexivity.
Qed.
Lemma read_near p x : (1 <= p)%nat -> is_finite x = true -> (Rabs (B2R x) <= bpow radix2 1000)%R ->
  exists t y, number_text p x = Some t /\ read_number t = Some y /\
    (Rabs (B2R y - B2R x) <= (/ 2 * (10 / 10 ^ p) + bpow radix2 (-51)) * Rabs (B2R x) + eta64)%R.
Proof.
  intros Hp Fx Bx. pose proof (Rabs_pos (B2R x)) as P0.
  assert (P10 : (0 < 10 / 10 ^ p <= 1)%R).
  { rewrite <- pow10_pow. split; [ apply pow10_pos | ]. change 1%R with (pow10 0). apply bpow_le. lia. }
  assert (B51 : (0 < bpow radix2 (-51))%R) by apply bpow_gt_0. assert (E0 : (0 < eta64)%R) by apply bpow_gt_0.
  destruct (Req_dec (B2R x) 0) as [Z0|Z0].
  { destruct (zero_text p x Fx Z0) as (t & H1 & H2). exists t, x. split; [ exact H1 | split; [ exact H2 | ] ].
    unfold Rminus. rewrite Rplus_opp_r, Z0, Rabs_R0. lra. }
  destruct (text_near p x Hp Fx Z0) as (t & m & e & Et & Er & Hm & Hn). rewrite pow10_pow in Hn.
  set (v := signed (Bsign x) (IZR m * pow10 e)) in *.
  assert (Bv : (Rabs v <= 2 * Rabs (B2R x))%R).
  { replace v with ((v - B2R x) + B2R x)%R by ring. eapply Rle_trans; [ apply Rabs_triang | ]. nra. }
  destruct (rnd_err v) as (d & h & Hd & Hh & E).
  assert (By : (Rabs (rnd v - v) <= 2 * u64 * Rabs (B2R x) + eta64)%R).
  { rewrite E. replace (v * (1 + d) + h - v)%R with (d * v + h)%R by ring. eapply Rle_trans; [ apply Rabs_triang | ]. rewrite Rabs_mult.
    apply Rplus_le_compat; [ | exact Hh ]. apply Rle_trans with (u64 * (2 * Rabs (B2R x)))%R; [ | lra ].
    apply Rmult_le_compat; try apply Rabs_pos; assumption. }
  assert (U : (4 * u64 = bpow radix2 (-51))%R).
  { unfold u64. change 4%R with (bpow radix2 2). rewrite <- bpow_plus. reflexivity. }
  assert (Hy : (Rabs (rnd v - B2R x) <= (/ 2 * (10 / 10 ^ p) + bpow radix2 (-51)) * Rabs (B2R x) + eta64)%R).
  { replace (rnd v - B2R x)%R with ((rnd v - v) + (v - B2R x))%R by ring. eapply Rle_trans; [ apply Rabs_triang | ].
    assert (0 <= u64 * Rabs (B2R x))%R by (apply Rmult_le_pos; [ apply bpow_ge_0 | exact P0 ]). rewrite <- U. lra. }
  assert (Ly : (Rabs (rnd v) < bpow radix2 1024)%R).
  { apply Rle_lt_trans with (bpow radix2 1001); [ | apply bpow_lt; lia ]. apply rnd_abs; [ lia | ].
    change (bpow radix2 1001) with (bpow radix2 (1 + 1000)). rewrite bpow_plus. change (bpow radix2 1) with 2%R. lra. }
  destruct (decimal_double_ok (Bsign x) m e Hm) as (D1 & D2 & D3); [ exact Ly | ]. fold v in D1.
  exists t, (decimal_double (Bsign x) m e). split; [ exact Et | ]. unfold read_number. rewrite Er, D2.
  split; [ reflexivity | ]. rewrite D1. exact Hy.
Qed.
Lemma streamed_shows p r : (1 <= p <= 13)%nat -> (Rabs r <= 2 ^ 1000)%R -> shows_digits p (streamed p r) r.
Proof.
  intros Hp Hr. rewrite two_1000 in Hr. destruct (to_double_ok r Hr) as [F V]. unfold dfin, dval in F, V.
  assert (Bx : (Rabs (B2R (to_double r)) <= bpow radix2 1000)%R) by (rewrite V; apply rnd_abs; [ lia | exact Hr ]).
  destruct (read_near p _ ltac:(lia) F Bx) as (t & y & Et & Ey & Hy). unfold shows_digits, streamed. rewrite Et.
  exists y. split; [ exact Ey | ]. rewrite V in Hy. pose proof (Rabs_pos r) as P0.
  destruct (rnd_err r) as (d & h & Hd & Hh & E).
  assert (Hn : (Rabs (rnd r - r) <= u64 * Rabs r + eta64)%R).
  { rewrite E. replace (r * (1 + d) + h - r)%R with (d * r + h)%R by ring. eapply Rle_trans; [ apply Rabs_triang | ]. rewrite Rabs_mult.
    apply Rplus_le_compat; [ | exact Hh ]. apply Rmult_le_compat_r; [ exact P0 | exact Hd ]. }
  clear E Hd Hh d h. rewrite two_1073.
  set (a := (10 / 10 ^ p)%R) in *.
  assert (Ea : (51 / (10 * 10 ^ p) = 51 / 100 * a)%R) by (unfold a; field; apply pow_nonzero; lra). rewrite Ea.
  assert (A1 : (bpow radix2 (-43) <= a <= 1)%R).
  { unfold a. rewrite <- pow10_pow. split.
    - apply Rle_trans with (pow10 (-12)); [ | apply bpow_le; lia ]. change (pow10 (-12)) with (/ pow10 12)%R.
      change (bpow radix2 (-43)) with (/ bpow radix2 43)%R. apply Rinv_le_contravar; [ apply bpow_gt_0 | ].
      rewrite <- !IZR_Zpower by lia. apply IZR_le. vm_compute. discriminate.
    - change 1%R with (pow10 0). apply bpow_le. lia. }
  assert (B43 : (bpow radix2 (-43) = 256 * bpow radix2 (-51) /\ bpow radix2 (-51) = 4 * u64 /\ bpow radix2 (-1073) = 4 * eta64)%R).
  { unfold u64, eta64. change 256%R with (bpow radix2 8). change 4%R with (bpow radix2 2). rewrite <- !bpow_plus. repeat split; reflexivity. }
  destruct B43 as (B43 & B51 & B73). assert (U0 : (0 < u64)%R) by apply bpow_gt_0. assert (E0 : (0 < eta64)%R) by apply bpow_gt_0.
  assert (U1 : (u64 <= / 1000000)%R).
  { unfold u64. change (bpow radix2 (-53)) with (/ bpow radix2 53)%R. apply Rinv_le_contravar; [ lra | ].
    rewrite <- IZR_Zpower by lia. apply IZR_le. vm_compute. discriminate. }
  rewrite B51 in Hy. rewrite B43, B51 in A1. rewrite B73. clear B43 B51 B73.
  assert (Hs : (Rabs (rnd r) <= Rabs r + (u64 * Rabs r + eta64))%R).
  { replace (rnd r) with (r + (rnd r - r))%R at 1 by ring. eapply Rle_trans; [ apply Rabs_triang | ]. lra. }
  replace (B2R y - r)%R with ((B2R y - rnd r) + (rnd r - r))%R by ring. eapply Rle_trans; [ apply Rabs_triang | ].
  assert (Hm : ((/ 2 * a + 4 * u64) * Rabs (rnd r) <= (/ 2 * a + 4 * u64) * (Rabs r + (u64 * Rabs r + eta64)))%R)
    by (apply Rmult_le_compat_l; [ lra | exact Hs ]).
  set (w := Rabs r) in *. clearbody w a.
  assert (M1 : ((/ 2 * a + 4 * u64) * (u64 * w) <= 1 * (u64 * w))%R) by (apply Rmult_le_compat_r; [ apply Rmult_le_pos; lra | lra ]).
  assert (M2 : ((/ 2 * a + 4 * u64) * eta64 <= 1 * eta64)%R) by (apply Rmult_le_compat_r; lra).
  assert (M3 : (1000 * u64 * w <= a * w)%R) by (apply Rmult_le_compat_r; lra).
  assert (M4 : (0 <= u64 * w)%R) by (apply Rmult_le_pos; lra).
  lra.
Qed.

(** ** Characters *)
Fixpoint chars (P : ascii -> Prop) (s : string) : Prop := match s with EmptyString => True | String c r => P c /\ chars P r end.
Definition number_char (c : ascii) : Prop := digit_of c <> None \/ In c ["."; "e"; "+"; "-"]%char.
Lemma chars_app P a b : chars P (a ++ b) <-> chars P a /\ chars P b.
Proof. induction a as [|c a IH]; cbn; [ tauto | ]. rewrite IH. tauto. Qed.
Lemma chars_impl (P Q : ascii -> Prop) s : (forall c, P c -> Q c) -> chars P s -> chars Q s.
Proof. intros H. induction s as [|c s IH]; cbn; [ auto | ]. intros [H1 H2]. auto. Qed.
Lemma chars_substring P s : forall n m, chars P s -> chars P (String.substring n m s).
Proof.
  induction s as [|c s IH]; intros n m; cbn; [ destruct n, m; cbn; auto | ]. intros [H1 H2].
  destruct n as [|n]; [ destruct m as [|m]; cbn; auto | apply IH, H2 ].
Qed.
Lemma chars_strip P s : chars P s -> chars P (strip s).
Proof. intros H. destruct (strip_zeros s) as [j E]. rewrite E in H. apply chars_app in H. apply H. Qed.
Lemma digits_chars n : forall k, chars number_char (digits n k).
Proof.
  induction n as [|n IH]; intros k; cbn [digits]; [ exact I | ]. apply chars_app. split; [ apply IH | ].
  split; [ | exact I ]. left. rewrite digit_of_digit by (apply Z.mod_pos_bound; lia). discriminate.
Qed.
Lemma zeros_chars n : chars number_char (zeros n).
Proof. induction n as [|n IH]; [ exact I | ]. split; [ | exact IH ]. left. discriminate. Qed.
Lemma point_chars a b : chars number_char a -> chars number_char b -> chars number_char (with_point a b).
Proof.
  intros Ha Hb. unfold with_point. apply chars_strip in Hb. destruct (strip b) as [|c t]; [ exact Ha | ].
  apply chars_app. split; [ exact Ha | ]. split; [ right; left; reflexivity | exact Hb ].
Qed.
Lemma number_chars p x t : number_text p x = Some t -> chars number_char t.
Proof.
  assert (Sg : forall s : bool, chars number_char (if s then "-" else "")) by (intros [|]; [ split; [ right; cbn; tauto | exact I ] | exact I ]).
  destruct x as [s|s| |s m e Hb]; cbn [number_text]; try discriminate.
  - intros E. injection E as <-. apply chars_app. split; [ apply Sg | ]. split; [ left; discriminate | exact I ].
  - destruct (fraction m e) as [n d]. destruct (decimal (Z.of_nat p) n d) as [k e10]. intros E. injection E as <-.
    apply chars_app. split; [ apply Sg | ]. unfold decimal_text. pose proof (digits_chars p k) as D.
    destruct ((-4 <=? e10)%Z && (e10 <? Z.of_nat p)%Z)%bool; [ destruct (0 <=? e10)%Z | ].
    + apply point_chars; apply chars_substring, D.
    + apply point_chars; [ split; [ left; discriminate | exact I ] | ]. apply chars_app. split; [ apply zeros_chars | exact D ].
    + apply chars_app. split; [ apply point_chars; apply chars_substring, D | ]. unfold exponent_text.
      split; [ right; cbn; tauto | ]. split; [ destruct (e10 <? 0)%Z; right; cbn; tauto | apply digits_chars ].
Qed.
(** "nan" is not the text of a number. *)
Lemma streamed_chars p r : chars number_char (streamed p r) \/ streamed p r = "nan".
Proof. unfold streamed. destruct (number_text p (to_double r)) as [t|] eqn:E; [ left; exact (number_chars _ _ _ E) | right; reflexivity ]. Qed.
Lemma not_char c d : number_char d -> ~ number_char c -> d <> c.
Proof. intros H1 H2 ->. contradiction. Qed.
Ltac no_char := intros [H|H]; [ apply H; reflexivity | cbn in H; repeat (destruct H as [H|H]; [ discriminate | ]); contradiction ].
Lemma newline_no : ~ number_char newline_char. Proof. no_char. Qed.
Lemma zero_no : ~ number_char Ascii.zero. Proof. no_char. Qed.
Lemma streamed_line p r : one_line (streamed p r).
Proof.
  destruct (streamed_chars p r) as [H|E]; [ | rewrite E; cbn; repeat split; discriminate ].
  induction (streamed p r) as [|c s IH]; [ exact I | ]. destruct H as [H1 H2].
  split; [ apply (not_char _ _ H1 newline_no) | split; [ apply (not_char _ _ H1 zero_no) | apply IH, H2 ] ].
Qed.
Lemma streamed_lacks c p r : ~ number_char c -> c <> "n"%char -> c <> "a"%char -> lacks c (streamed p r).
Proof.
  intros Hc Nn Na. destruct (streamed_chars p r) as [H|E]; [ | rewrite E; cbn; repeat split; congruence ].
  induction (streamed p r) as [|d s IH]; [ exact I | ]. destruct H as [H1 H2]. split; [ apply (not_char _ _ H1 Hc) | apply IH, H2 ].
Qed.
Lemma tab_lacks p r : lacks tab_char (streamed p r).
Proof. apply streamed_lacks; [ no_char | discriminate | discriminate ]. Qed.
Lemma bar_lacks p r : lacks bar (streamed p r).
Proof. apply streamed_lacks; [ no_char | discriminate | discriminate ]. Qed.
Lemma blank_lacks p r : lacks " "%char (streamed p r).
Proof. apply streamed_lacks; [ no_char | discriminate | discriminate ]. Qed.
Lemma shows_some p t r : shows_digits p t r -> t <> "".
Proof. intros (y & H & _) ->. discriminate. Qed.

(** ** Words *)
Lemma words_blanks n s : words_from "" (blanks n ++ s) = words_from "" s.
Proof. induction n; [ reflexivity | ]. cbn. exact IHn. Qed.
Lemma words_text t : forall w s, lacks " "%char t -> words_from w (t ++ s) = words_from (w ++ t) s.
Proof.
  induction t as [|c t IH]; intros w s H; [ cbn; rewrite append_nil; reflexivity | ]. destruct H as [H1 H2].
  cbn [append words_from]. destruct (Ascii.eqb_spec c " "%char); [ contradiction | ]. rewrite IH by exact H2. rewrite append_assoc. reflexivity.
Qed.
Lemma words_one t : lacks " "%char t -> t <> "" -> words_from "" t = [t].
Proof. intros H1 H2. rewrite <- (append_nil t) at 1. rewrite words_text by exact H1. cbn. destruct (String.eqb_spec t ""); [ contradiction | reflexivity ]. Qed.
Lemma words_next t s : lacks " "%char t -> t <> "" -> words_from "" (t ++ " " ++ s) = t :: words_from "" s.
Proof. intros H1 H2. rewrite words_text by exact H1. cbn. destruct (String.eqb_spec t ""); [ contradiction | reflexivity ]. Qed.
Lemma row_words w ts : Forall (fun t => lacks " "%char t /\ t <> "") ts -> words (String.concat " " (map (setw w) ts)) = ts.
Proof.
  intros F. unfold words. induction F as [|t ts [H1 H2] F IH]; [ reflexivity | ]. destruct ts as [|t2 ts].
  - cbn [map String.concat]. unfold setw. rewrite words_blanks. apply words_one; assumption.
  - change (String.concat " " (map (setw w) (t :: t2 :: ts))) with (setw w t ++ " " ++ String.concat " " (map (setw w) (t2 :: ts))).
    unfold setw at 1. rewrite append_assoc, words_blanks, words_next, IH by assumption. reflexivity.
Qed.
Lemma row_line w ts : Forall one_line ts -> one_line (String.concat " " (map (setw w) ts)).
Proof.
  intros F. assert (Sw : forall t, one_line t -> one_line (setw w t)) by (intros t H; apply one_line_app; [ apply blanks_line | exact H ]).
  induction F as [|t ts H F IH]; [ exact I | ]. destruct ts as [|t2 ts]; [ apply Sw, H | ].
  change (String.concat " " (map (setw w) (t :: t2 :: ts))) with (setw w t ++ " " ++ String.concat " " (map (setw w) (t2 :: ts))).
  apply one_line_app; [ apply Sw, H | ]. apply one_line_app; [ cbn; repeat split; discriminate | exact IH ].
Qed.

(** ** Lines *)
Lemma tokens_cons t l : tokens_text (t :: l) = token_text t ++ tokens_text l.
Proof. unfold tokens_text. destruct l; cbn [map String.concat]; [ rewrite append_nil; reflexivity | reflexivity ]. Qed.
Definition line_token (t : token) : Prop := match t with Text s => one_line s | Number _ => True | _ => False end.
Lemma token_line t : line_token t -> one_line (token_text t).
Proof. destruct t; cbn [line_token token_text]; try contradiction; [ auto | intros _; apply streamed_line ]. Qed.
Lemma tokens_one_line l : Forall line_token l -> one_line (tokens_text l).
Proof. induction 1 as [|t l H F IH]; [ exact I | ]. rewrite tokens_cons. apply one_line_app; [ apply token_line, H | exact IH ]. Qed.
Lemma tokens_app a b : tokens_text (app a b) = tokens_text a ++ tokens_text b.
Proof. induction a as [|t a IH]; [ reflexivity | ]. cbn [app]. rewrite !tokens_cons, IH, append_assoc. reflexivity. Qed.
Lemma lines_tokens l rest : Forall line_token l -> lines_of (tokens_text (app l (Endl :: rest))) = tokens_text l :: lines_of (tokens_text rest).
Proof. intros F. rewrite tokens_app, tokens_cons. apply lines_line, tokens_one_line, F. Qed.
Definition row_text (T : iso) (row : list R) : string :=
  String.concat " " (map (setw (widest (map (map stream6) (coefficients T)))) (map stream6 row)).
Lemma matrix_lines T rest : lines_of (tokens_text (Matrix4 T :: Endl :: rest)) = app (map (row_text T) (coefficients T)) (lines_of (tokens_text rest)).
Proof.
  rewrite !tokens_cons. cbn [token_text].
  assert (L : forall row, one_line (row_text T row)) by (intros; apply row_line, Forall_forall; intros t Ht; apply in_map_iff in Ht as (r & <- & _); apply streamed_line).
  replace (matrix_text T) with (String.concat newline (map (row_text T) (coefficients T))) by (unfold matrix_text; cbv zeta; rewrite map_map; reflexivity).
  unfold coefficients. cbn [map String.concat]. set (a := row_text T _). set (b := row_text T _). set (c := row_text T _). set (d := row_text T _).
  rewrite !append_assoc. unfold a, b, c, d. rewrite !lines_line by apply L. reflexivity.
Qed.
Definition reasonable (r : R) : Prop := (Rabs r <= 2 ^ 1000)%R.
Lemma stream_shows r : reasonable r -> shows (stream6 r) r.
Proof. intros H. apply streamed_shows; [ lia | exact H ]. Qed.
Lemma row_shows T row : Forall reasonable row -> shows_row (row_text T row) row.
Proof.
  intros F. unfold shows_row, row_text. rewrite row_words.
  - induction F as [|r row H F IH]; cbn [map]; constructor; [ apply stream_shows, H | exact IH ].
  - apply Forall_forall. intros t Ht. apply in_map_iff in Ht as (r & <- & Hr). split; [ apply blank_lacks | ].
    apply (shows_some 6 _ r). apply stream_shows. rewrite Forall_forall in F. apply F, Hr.
Qed.
Lemma max_from l : forall w, (w <= fold_left Nat.max l w)%nat /\ forall n, In n l -> (n <= fold_left Nat.max l w)%nat.
Proof.
  induction l as [|a l IH]; intros w; cbn [fold_left]; [ split; [ lia | intros ? [] ] | ].
  destruct (IH (Nat.max w a)) as [A B]. split; [ lia | ]. intros n [<-|H]; [ lia | exact (B n H) ].
Qed.
Lemma widest_ge cells row cell : In row cells -> In cell row -> (String.length cell <= widest cells)%nat.
Proof. intros Hr Hc. apply max_from, in_map, in_concat. exists row. split; assumption. Qed.
Lemma setw_fits w t : (String.length t <= w)%nat -> String.length (setw w t) = w.
Proof. intros H. unfold setw. rewrite length_append, blanks_length. lia. Qed.
Lemma matrix_columns T : in_columns (map (row_text T) (coefficients T)).
Proof.
  exists (widest (map (map stream6) (coefficients T))). apply Forall_forall. intros line Hl. apply in_map_iff in Hl as (row & <- & Hr).
  assert (F : Forall (fun cell => String.length cell = widest (map (map stream6) (coefficients T)))
    (map (setw (widest (map (map stream6) (coefficients T)))) (map stream6 row))).
  { apply Forall_forall. intros c Hc. apply in_map_iff in Hc as (t & <- & Ht). apply setw_fits.
    apply (widest_ge _ (map stream6 row)); [ apply in_map, Hr | exact Ht ]. }
  unfold row_text. revert F. generalize (widest (map (map stream6) (coefficients T))) as w. intros w.
  unfold coefficients in Hr. cbn [In] in Hr. repeat destruct Hr as [<-|Hr]; try contradiction;
    cbn [map String.concat]; intros F; do 4 eexists; (split; [ reflexivity | exact F ]).
Qed.
Lemma matrix_shows T : Forall (Forall reasonable) (coefficients T) -> shows_matrix (map (row_text T) (coefficients T)) T.
Proof.
  intros F. unfold shows_matrix. split; [ apply matrix_columns | ]. change [[m00 _; _; _; _]; _; _; _] with (coefficients T).
  induction F as [|row rows H F IH]; cbn [map]; constructor; [ apply row_shows, H | exact IH ].
Qed.
Lemma xyz_text v : tokens_text (getStringXYZ v) = "xyz=" ++ quote ++ stream6 (vx v) ++ " " ++ stream6 (vy v) ++ " " ++ stream6 (vz v) ++ quote.
Proof. unfold getStringXYZ. rewrite !tokens_cons. cbn [token_text tokens_text map String.concat]. rewrite append_nil. reflexivity. Qed.
Lemma quaternion_text q : tokens_text (getStringQuaternion q) =
  "qxyzw=" ++ quote ++ stream6 (qx q) ++ " " ++ stream6 (qy q) ++ " " ++ stream6 (qz q) ++ " " ++ stream6 (qw q) ++ quote.
Proof. unfold getStringQuaternion. rewrite !tokens_cons. cbn [token_text tokens_text map String.concat]. rewrite append_nil. reflexivity. Qed.
Lemma rpy_text e : tokens_text (getStringRPY e) = "rpy=" ++ quote ++ stream6 (vz e) ++ "(" ++ stream6 (degrees (vz e)) ++ " deg) " ++ stream6 (vy e) ++ "(" ++
  stream6 (degrees (vy e)) ++ " deg) " ++ stream6 (vx e) ++ "(" ++ stream6 (degrees (vx e)) ++ " deg)" ++ quote.
Proof. unfold getStringRPY. rewrite !tokens_cons. cbn [token_text tokens_text map String.concat]. rewrite append_nil. reflexivity. Qed.
(** ** Sizes *)
Lemma up_to b r : (b <= 1000)%nat -> (Rabs r <= 2 ^ b)%R -> reasonable r.
Proof. intros Hb H. unfold reasonable. eapply Rle_trans; [ exact H | ]. apply Rle_pow; [ lra | exact Hb ]. Qed.
Lemma small r : (Rabs r <= 256)%R -> reasonable r.
Proof. intros H. apply (up_to 8); [ lia | ]. lra. Qed.
Lemma norm_part v : (Rabs (vx v) <= norm v /\ Rabs (vy v) <= norm v /\ Rabs (vz v) <= norm v)%R.
Proof.
  unfold norm, dot. assert (A : forall a b, (a * a <= b -> Rabs a <= sqrt b)%R).
  { intros a b H. rewrite <- (sqrt_Rsqr_abs a). apply sqrt_le_1_alt. exact H. }
  repeat split; apply A; nra.
Qed.
Lemma rot_parts m : is_rot m -> forall entry, In entry [m00; m01; m02; m10; m11; m12; m20; m21; m22] -> (Rabs (entry m) <= 1)%R.
Proof.
  intros H entry E. destruct H as [H _]. destruct m as [a b c d e f g h i]. unfold mmul, mT, I3 in H. cbn in H. injection H as H1 _ _ _ H2 _ _ _ H3.
  cbn in E. assert (A : forall a, (a * a <= 1 -> Rabs a <= 1)%R) by (intros x Hx; apply Rabs_le; nra).
  repeat destruct E as [<- | E]; try contradiction; cbn; apply A; nra.
Qed.
Lemma coefficients_fit b T : (b <= 1000)%nat -> rigid T -> (norm (tr T) <= 2 ^ b)%R -> Forall (Forall reasonable) (coefficients T).
Proof.
  intros Hb H N. pose proof (rot_parts _ H) as P. destruct (norm_part (tr T)) as (X & Y & Z).
  assert (E : forall entry, In entry [m00; m01; m02; m10; m11; m12; m20; m21; m22] -> reasonable (entry (lin T))) by (intros entry He; apply small; specialize (P entry He); lra).
  assert (C : forall r, (Rabs r <= norm (tr T) -> reasonable r)%R) by (intros r Hr; apply (up_to b _ Hb); lra).
  assert (Z0 : reasonable 0) by (apply small; rewrite Rabs_R0; lra). assert (O1 : reasonable 1) by (apply small; rewrite Rabs_R1; lra).
  unfold coefficients. repeat (constructor; try (apply E; cbn; tauto); try (apply C; assumption); try assumption).
Qed.
Lemma pitch_range m : let e := eulerAngles210 m in (- PI < vy e <= PI)%R.
Proof. unfold eulerAngles210. destruct (Rlt_dec _ 0); cbn [vy]; apply atan2_range. Qed.
Lemma angle_fit a : (- PI <= a <= PI)%R -> reasonable a /\ reasonable (degrees a).
Proof.
  intros H. pose proof PI_4 as P4. pose proof PI_RGT_0 as P0. split; apply small.
  - apply Rabs_le. lra.
  - unfold degrees, Rdiv. rewrite !Rabs_mult, Rabs_inv. rewrite (Rabs_pos_eq 180), (Rabs_pos_eq PI) by lra.
    assert (Rabs a <= PI)%R by (apply Rabs_le; lra).
    assert (E : (PI * 180 * / PI = 180)%R) by (field; lra). apply Rle_trans with (PI * 180 * / PI)%R; [ | rewrite E; lra ].
    apply Rmult_le_compat_r; [ left; apply Rinv_0_lt_compat, P0 | ]. lra.
Qed.
Lemma xyz_shows v b : (b <= 1000)%nat -> (norm v <= 2 ^ b)%R -> shows_xyz (tokens_text (getStringXYZ v)) v.
Proof.
  intros Hb N. destruct (norm_part v) as (X & Y & Z). exists (stream6 (vx v)), (stream6 (vy v)), (stream6 (vz v)).
  split; [ apply xyz_text | ]. split; [ | split ]; apply stream_shows, (up_to b _ Hb); lra.
Qed.
Lemma rpy_shows m : let e := eulerAngles210 m in shows_rpy (tokens_text (getStringRPY e)) (vz e) (vy e) (vx e).
Proof.
  intros e. pose proof (roll_range m) as A. pose proof (pitch_range m) as B. pose proof (yaw_range m) as C. cbv zeta in A, B, C. fold e in A, B, C.
  destruct (angle_fit (vz e)) as [A1 A2]; [ lra | ]. destruct (angle_fit (vy e)) as [B1 B2]; [ lra | ]. destruct (angle_fit (vx e)) as [C1 C2]; [ lra | ].
  exists (stream6 (vz e)), (stream6 (degrees (vz e))), (stream6 (vy e)), (stream6 (degrees (vy e))), (stream6 (vx e)), (stream6 (degrees (vx e))).
  split; [ apply rpy_text | ]. repeat (split; [ apply stream_shows; assumption | ]). apply stream_shows; assumption.
Qed.
Lemma quaternion_shows q : qnorm2 q = 1%R -> shows_quaternion (tokens_text (getStringQuaternion q)) q.
Proof.
  intros U. destruct (unit_parts q U) as (W & X & Y & Z). exists (stream6 (qx q)), (stream6 (qy q)), (stream6 (qz q)), (stream6 (qw q)).
  split; [ apply quaternion_text | ]. split; [ | split; [ | split ] ]; apply stream_shows, small; lra.
Qed.

(** ** The texts *)
Lemma plain_xyz v : Forall line_token (getStringXYZ v).
Proof. unfold getStringXYZ. repeat constructor; try discriminate. Qed.
Lemma plain_rpy v : Forall line_token (getStringRPY v).
Proof. unfold getStringRPY. repeat constructor; try discriminate. Qed.
Lemma plain_quaternion v : Forall line_token (getStringQuaternion v).
Proof. unfold getStringQuaternion. repeat constructor; try discriminate. Qed.
Lemma transform_lines T parent child text : one_line parent -> one_line child -> one_line text ->
  lines_of (tokens_text (printTransform T parent child text)) =
  (text ++ ":") :: app (map (row_text T) (coefficients T))
  [""; "--- URDF Format " ++ parent ++ " to " ++ child ++ " ---"; tokens_text (getStringXYZ (tr T)); tokens_text (getStringRPY (eulerAngles210 (lin T)));
   tokens_text (getStringQuaternion (quat_of_mat (lin T))); ""].
Proof.
  intros Hp Hc Ht.
  change (printTransform T parent child text) with
    (app [Text text; Text ":"] (Endl :: Matrix4 T :: Endl :: app [] (Endl :: app [Text "--- URDF Format "; Text parent; Text " to "; Text child; Text " ---"] (Endl ::
     app (getStringXYZ (tr T)) (Endl :: app (getStringRPY (eulerAngles210 (lin T))) (Endl :: app (getStringQuaternion (quat_of_mat (lin T))) (Endl :: []))))))).
  rewrite lines_tokens by (constructor; [ exact Ht | repeat constructor; discriminate ]).
  rewrite matrix_lines, lines_tokens by constructor.
  rewrite lines_tokens by (repeat constructor; try discriminate; assumption).
  rewrite lines_tokens by apply plain_xyz. rewrite lines_tokens by apply plain_rpy. rewrite lines_tokens by apply plain_quaternion.
  rewrite !(tokens_cons (Text _)). cbn [token_text tokens_text map String.concat lines_of]. rewrite !append_nil. reflexivity.
Qed.
Lemma transform_text T parent child text : ordinary_pose T -> one_line parent -> one_line child -> one_line text ->
  exists l1 l2 l3 l4 xyz rpy qxyzw roll pitch yaw q,
    lines_of (tokens_text (printTransform T parent child text)) =
      [text ++ ":"; l1; l2; l3; l4; ""; "--- URDF Format " ++ parent ++ " to " ++ child ++ " ---"; xyz; rpy; qxyzw; ""] /\
    shows_matrix [l1; l2; l3; l4] T /\ shows_xyz xyz (tr T) /\ shows_rpy rpy roll pitch yaw /\ shows_quaternion qxyzw q /\
    rpy_matrix roll pitch yaw = lin T /\ qnorm2 q = 1%R /\ q_matrix q = lin T.
Proof.
  intros [H N] Hp Hc Ht. pose proof (transform_lines T parent child text Hp Hc Ht) as L.
  pose proof (matrix_shows T (coefficients_fit 900 T ltac:(lia) H N)) as M. unfold coefficients in L, M. cbn [map app] in L, M.
  do 4 eexists. exists (tokens_text (getStringXYZ (tr T))), (tokens_text (getStringRPY (eulerAngles210 (lin T)))),
    (tokens_text (getStringQuaternion (quat_of_mat (lin T)))), (vz (eulerAngles210 (lin T))), (vy (eulerAngles210 (lin T))), (vx (eulerAngles210 (lin T))), (quat_of_mat (lin T)).
  split; [ exact L | ]. split; [ exact M | ]. split; [ apply (xyz_shows _ 900); [ lia | exact N ] | ]. split; [ apply rpy_shows | ].
  split; [ apply quaternion_shows, quat_of_mat_unit, H | ]. split; [ apply (euler_spec _ H) | ]. split; [ apply quat_of_mat_unit, H | apply q_matrix_quat_of_mat, H ].
Qed.
