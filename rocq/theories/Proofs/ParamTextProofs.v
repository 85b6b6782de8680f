(** The text of camera parameters and of kinematic calibration results. *)
From Coq Require Import Reals Arith Lia Ascii String List Sorted Permutation.
From Verif.Base Require Import Geom Outcome Matrix.
From Verif.Model Require Import Pose Covariance CovReport Serialization Intrinsic Kinematic KinematicExample ParamText.
From Verif.Spec Require Import CovarianceSpec TextSpec YamlSpec KinExampleSpec ParamTextSpec.
From Verif.Proofs Require Import GeomLemmas CovarianceProofs TextProofs EulerProofs KinRunProofs.
Import ListNotations.
Local Open Scope string_scope.

Lemma split_app c a s : lacks c a -> split c (a ++ String c s) = a :: split c s.
Proof.
  induction a as [ | x a IH ]; cbn [lacks append split]; intros H.
  - rewrite Ascii.eqb_refl. reflexivity.
  - destruct H as [Hx Ha]. destruct (Ascii.eqb_spec x c); [ contradiction | ]. rewrite IH by exact Ha. reflexivity.
Qed.
Lemma split_lacks c a : lacks c a -> split c a = [a].
Proof.
  induction a as [ | x a IH ]; cbn; intros H; [ reflexivity | ]. destruct H as [Hx Ha].
  destruct (Ascii.eqb_spec x c); [ contradiction | ]. rewrite IH by exact Ha. reflexivity.
Qed.
Lemma lacks_app c a b : lacks c a -> lacks c b -> lacks c (a ++ b).
Proof. induction a; cbn; [ auto | ]. intros [H1 H2] Hb. auto. Qed.
Lemma lines_one a : one_line a -> lines_of a = [a].
Proof.
  induction a as [ | c a IH ]; intros H; [ reflexivity | ]. destruct H as (H1 & H2 & H3). cbn [lines_of].
  destruct (Ascii.eqb_spec c newline_char); [ contradiction | ]. rewrite IH by exact H3. reflexivity.
Qed.
Lemma lines_some a : lines_of a <> [].
Proof. destruct a as [ | c a ]; [ discriminate | ]. cbn [lines_of]. destruct (Ascii.eqb c newline_char); [ discriminate | ]. destruct (lines_of a); discriminate. Qed.
Lemma lines_whole a b ls : whole_lines a ls -> lines_of (a ++ b) = app ls (lines_of b).
Proof.
  unfold whole_lines. revert ls. induction a as [ | c a IH ]; intros ls H.
  - destruct ls as [ | l ls ]; [ reflexivity | ]. exfalso. apply (f_equal (@List.length string)) in H. cbn in H. rewrite app_length in H. cbn in H. lia.
  - change (String c a ++ b) with (String c (a ++ b)). cbn [lines_of] in *. destruct (Ascii.eqb c newline_char).
    + destruct ls as [ | l ls ]; cbn [app] in H.
      * exfalso. apply (f_equal (@tl string)) in H. exact (lines_some _ H).
      * pose proof (f_equal (hd "") H) as H0. apply (f_equal (@tl string)) in H. cbn in H0, H. subst l. rewrite (IH ls H). reflexivity.
    + destruct (lines_of a) as [ | x xs ] eqn:Ea; [ exfalso; exact (lines_some _ Ea) | ].
      destruct ls as [ | l ls ]; cbn [app] in H; [ discriminate | ]. injection H as H0 H1. subst l xs.
      rewrite (IH (x :: ls) eq_refl). reflexivity.
Qed.
Lemma blanks_line n : one_line (blanks n).
Proof. induction n; cbn; [ exact I | ]. repeat split; [ discriminate | discriminate | exact IHn ]. Qed.
Lemma blanks_lack n : lacks bar (blanks n).
Proof. induction n; cbn; [ exact I | ]. split; [ discriminate | exact IHn ]. Qed.
Lemma blanks_length n : String.length (blanks n) = n.
Proof. induction n; cbn; congruence. Qed.
Lemma length_append a b : String.length (a ++ b) = String.length a + String.length b.
Proof. induction a; cbn; congruence. Qed.
Lemma padded_same t : padded t t.
Proof. destruct t; left; reflexivity. Qed.
Lemma padded_blanks n t : padded t (blanks n ++ t).
Proof. induction n as [ | n IH ]; [ apply padded_same | ]. right. split; [ reflexivity | exact IH ]. Qed.
Ltac plain := cbn; repeat split; discriminate.

Section Text.
  Variables (stream stream4 to_string : R -> string) (stream_opt : option R -> string).
  Variable std_sort : (named_param -> named_param -> bool) -> list named_param -> list named_param.
  Hypothesis Hs : forall x, one_line (stream x).
  Hypothesis Hst : forall x, lacks tab_char (stream x).
  Hypothesis H4 : forall x, one_line (stream4 x).
  Hypothesis H4b : forall x, lacks bar (stream4 x).
  Hypothesis Ho : forall x, one_line (stream_opt x).

  (** Camera parameters *)
  Ltac one := repeat (apply one_line_app; [ first [ plain | apply Hs | apply Ho ] | ]); first [ plain | apply Hs | apply Ho ].
  Lemma camera_fields k a b c d e text : one_line text ->
    exists l1 l2 l3,
      lines_of (printCameraIntrinsics stream k text) = [text ++ ":"; "Intr:"; l1; l2; ""] /\
      lines_of (printCameraDistortion stream a b c d e text) = [text ++ ":"; "Distortions:"; l3; ""] /\
      app (app (split tab_char l1) (split tab_char l2)) (split tab_char l3) =
      map (fun nv => field stream (fst nv) (snd nv)) (combine labels_intrinsic_params (app (intr_values k) [a; b; c; d; e])).
  Proof.
    intros Ht.
    exists ("fx = " ++ stream (fx k) ++ tab ++ "fy = " ++ stream (fy k)), ("cx = " ++ stream (cx k) ++ tab ++ "cy = " ++ stream (cy k)),
      ("k1 = " ++ stream a ++ tab ++ "k2 = " ++ stream b ++ tab ++ "p1 = " ++ stream c ++ tab ++ "p2 = " ++ stream d ++ tab ++ "k3 = " ++ stream e).
    assert (Td : one_line (text ++ ":")) by (apply one_line_app; [ exact Ht | plain ]).
    split; [ | split ].
    - unfold printCameraIntrinsics, getStringIntrinsics. rewrite <- (append_nil newline) at 4.
      transitivity (lines_of ((text ++ ":") ++ newline ++ "Intr:" ++ newline ++
        ("fx = " ++ stream (fx k) ++ tab ++ "fy = " ++ stream (fy k)) ++ newline ++
        ("cx = " ++ stream (cx k) ++ tab ++ "cy = " ++ stream (cy k)) ++ newline ++ "")).
      { f_equal. rewrite !append_assoc. reflexivity. }
      rewrite (lines_line _ _ Td), lines_line by plain. rewrite lines_line by one. rewrite lines_line by one. reflexivity.
    - unfold printCameraDistortion, getStringDistortion.
      transitivity (lines_of ((text ++ ":") ++ newline ++ "Distortions:" ++ newline ++
        ("k1 = " ++ stream a ++ tab ++ "k2 = " ++ stream b ++ tab ++ "p1 = " ++ stream c ++ tab ++ "p2 = " ++ stream d ++ tab ++ "k3 = " ++ stream e)
        ++ newline ++ "")).
      { f_equal. rewrite !append_assoc. reflexivity. }
      rewrite (lines_line _ _ Td), lines_line by plain. rewrite lines_line by one. reflexivity.
    - assert (F : forall n x s, lacks tab_char n -> split tab_char (n ++ stream x ++ tab ++ s) = (n ++ stream x) :: split tab_char s).
      { intros n x s Hn. change (tab ++ s) with (String tab_char s). rewrite <- append_assoc. apply split_app, lacks_app; auto. }
      assert (G : forall n x, lacks tab_char n -> split tab_char (n ++ stream x) = [n ++ stream x]).
      { intros n x Hn. apply split_lacks, lacks_app; auto. }
      rewrite !F by plain. rewrite !G by plain. reflexivity.
  Qed.

  (** Tables *)
  Lemma setw_length w s : String.length s <= w -> String.length (setw w s) = w.
  Proof. intros H. unfold setw. rewrite length_append, blanks_length. lia. Qed.
  Lemma max_ge (f : nat -> nat) l w : w <= fold_left (fun w i => Nat.max w (f i)) l w /\
    forall i, In i l -> f i <= fold_left (fun w i => Nat.max w (f i)) l w.
  Proof.
    revert w. induction l as [ | a l IH ]; intros w; cbn [fold_left]; [ split; [ lia | intros i [] ] | ].
    destruct (IH (Nat.max w (f a))) as [A B]. split; [ lia | ]. intros i [-> | Hi]; [ lia | auto ].
  Qed.
  Lemma width_ge m i j : i < rows m -> j < cols m -> String.length (stream4 (ent m i j)) <= format_width stream4 m.
  Proof.
    intros Hi Hj. unfold format_width.
    assert (M : forall l w, w <= fold_left (fun w j => fold_left (fun w i => Nat.max w (String.length (stream4 (ent m i j)))) (seq 0 (rows m)) w) l w /\
      forall j, In j l -> String.length (stream4 (ent m i j)) <=
        fold_left (fun w j => fold_left (fun w i => Nat.max w (String.length (stream4 (ent m i j)))) (seq 0 (rows m)) w) l w).
    { induction l as [ | a l IH ]; intros w; cbn [fold_left]; [ split; [ lia | intros ? [] ] | ].
      match goal with |- context [ fold_left _ l ?x ] => set (w' := x) end.
      destruct (max_ge (fun i => String.length (stream4 (ent m i a))) (seq 0 (rows m)) w) as [A B]. fold w' in A, B.
      destruct (IH w') as [C D]. split; [ lia | ]. intros b [<- | Hb]; [ | auto ].
      specialize (B i). rewrite in_seq in B. specialize (B ltac:(lia)). cbn beta in B. lia. }
    apply M. apply in_seq. lia.
  Qed.
  Fixpoint bars (cells : list string) : string := match cells with [] => "" | c :: r => c ++ "|" ++ bars r end.
  Lemma row_text m w i : 0 < cols m ->
    format_row stream4 m w i = "|" ++ bars (map (fun j => setw w (stream4 (ent m i j))) (seq 0 (cols m))).
  Proof.
    intros Hc. unfold format_row. f_equal. destruct (cols m) as [ | n ]; [ lia | ]. cbn [seq fold_left map bars]. change (Nat.eqb 0 0) with true. cbn iota.
    change ("" ++ "" ++ ?x) with x. 
    assert (G : forall l s, Forall (fun j => j <> 0) l ->
      fold_left (fun s j => s ++ (if Nat.eqb j 0 then "" else "|") ++ setw w (stream4 (ent m i j))) l s ++ "|" =
      s ++ "|" ++ bars (map (fun j => setw w (stream4 (ent m i j))) l)).
    { induction l as [ | j l IH ]; intros s H; cbn [fold_left map bars]; [ rewrite append_nil; reflexivity | ].
      inversion H; subst. rewrite IH by assumption. destruct (Nat.eqb_spec j 0); [ contradiction | ]. rewrite !append_assoc. reflexivity. }
    apply G. apply Forall_forall. intros j Hj. apply in_seq in Hj. lia.
  Qed.
  Lemma split_bars cells : Forall (lacks bar) cells -> split bar ("|" ++ bars cells) = "" :: app cells [""].
  Proof.
    intros H. change (split bar ("|" ++ bars cells)) with ("" :: split bar (bars cells)). f_equal.
    induction H as [ | c cells Hc Hl IH ]; [ reflexivity | ]. cbn [bars app]. change ("|" ++ bars cells) with (String bar (bars cells)).
    rewrite split_app by exact Hc. rewrite IH. reflexivity.
  Qed.
  Lemma row_line m w i : 0 < cols m -> one_line (format_row stream4 m w i).
  Proof.
    intros Hc. rewrite row_text by exact Hc. apply one_line_app; [ plain | ].
    induction (seq 0 (cols m)) as [ | j l IH ]; cbn [map bars]; [ exact I | ].
    apply one_line_app; [ apply one_line_app; [ apply blanks_line | apply H4 ] | ]. apply one_line_app; [ plain | exact IH ].
  Qed.
  (** the text of some lines *)
  Fixpoint joined (ls : list string) : string :=
    match ls with [] => "" | [l] => l | l :: r => l ++ newline ++ joined r end.
  Lemma lines_joined ls s : ls <> [] -> Forall one_line ls -> lines_of (joined ls ++ newline ++ s) = app ls (lines_of s).
  Proof.
    intros Hn H. induction H as [ | l ls Hl Hls IH ]; [ contradiction | ]. destruct ls as [ | l' ls ].
    - cbn [joined app]. apply lines_line, Hl.
    - cbn [joined]. rewrite !append_assoc, lines_line by exact Hl. cbn [app]. f_equal. apply IH. discriminate.
  Qed.
  Definition table_lines (m : matrix) : list string :=
    if Nat.eqb (rows m * cols m) 0 then [""] else map (format_row stream4 m (format_width stream4 m)) (seq 0 (rows m)).
  Lemma format_text m : format stream4 m = joined (table_lines m).
  Proof.
    unfold format, table_lines. destruct (Nat.eqb_spec (rows m * cols m) 0) as [ E | E ]; [ reflexivity | ].
    set (f := format_row stream4 m (format_width stream4 m)).
    assert (G : forall k a s, a + k = rows m -> 
      fold_left (fun s i => s ++ f i ++ (if Nat.ltb i (rows m - 1) then newline else "")) (seq a k) s = s ++ joined (map f (seq a k))).
    { induction k as [ | k IH ]; intros a s Hk; cbn [seq fold_left map]; [ cbn; rewrite append_nil; reflexivity | ].
      rewrite IH by lia. destruct k as [ | k ].
      - destruct (Nat.ltb_spec a (rows m - 1)); [ lia | ]. cbn [seq map joined]. rewrite !append_nil. reflexivity.
      - destruct (Nat.ltb_spec a (rows m - 1)); [ | lia ]. cbn [seq map joined]. rewrite !append_assoc. reflexivity. }
    rewrite G by lia. reflexivity.
  Qed.
  Lemma table_some m : table_lines m <> [].
  Proof.
    unfold table_lines. destruct (Nat.eqb_spec (rows m * cols m) 0) as [ E | E ]; [ discriminate | ].
    destruct (rows m); [ contradiction | discriminate ].
  Qed.
  Lemma table_plain m : Forall one_line (table_lines m).
  Proof.
    unfold table_lines. destruct (Nat.eqb_spec (rows m * cols m) 0) as [ E | E ]; [ repeat constructor | ].
    apply Forall_forall. intros l Hl. apply in_map_iff in Hl as (i & <- & _). apply row_line. destruct (cols m); lia.
  Qed.
  Lemma table_shown m : shown stream4 m (table_lines m).
  Proof.
    unfold shown, table_lines. destruct (Nat.eqb_spec (rows m * cols m) 0) as [ E | E ].
    - destruct (rows m) as [ | r ]; [ reflexivity | ]. destruct (cols m) as [ | c ]; [ reflexivity | ]. cbn in E. lia.
    - assert (T : table stream4 m (map (format_row stream4 m (format_width stream4 m)) (seq 0 (rows m)))).
      { split; [ rewrite map_length, seq_length; reflexivity | ]. exists (format_width stream4 m). intros i l Hl.
        assert (Hi : i < rows m).
        { apply Nat.lt_le_trans with (List.length (map (format_row stream4 m (format_width stream4 m)) (seq 0 (rows m)))).
          - apply nth_error_Some. congruence.
          - rewrite map_length, seq_length. lia. }
        assert (Hl' : l = format_row stream4 m (format_width stream4 m) i).
        { apply (nth_error_nth _ _ "") in Hl. rewrite nth_indep with (d' := format_row stream4 m (format_width stream4 m) 0) in Hl
            by (rewrite map_length, seq_length; exact Hi). rewrite map_nth, seq_nth in Hl by exact Hi. symmetry. exact Hl. }
        subst l. eexists. split; [ | split ].
        + rewrite row_text by (destruct (cols m); lia). apply split_bars. apply Forall_forall. intros x Hx. apply in_map_iff in Hx as (j & <- & _).
          apply lacks_app; [ apply blanks_lack | apply H4b ].
        + rewrite map_length, seq_length. reflexivity.
        + intros j cell Hc. assert (Hj : j < cols m).
          { apply Nat.lt_le_trans with (List.length (map (fun j => setw (format_width stream4 m) (stream4 (ent m i j))) (seq 0 (cols m)))).
            - apply nth_error_Some. congruence.
            - rewrite map_length, seq_length. lia. }
          assert (Hc' : cell = setw (format_width stream4 m) (stream4 (ent m i j))).
          { set (g := fun j => setw (format_width stream4 m) (stream4 (ent m i j))) in *. apply (nth_error_nth _ _ "") in Hc.
            rewrite nth_indep with (d' := g 0) in Hc by (rewrite map_length, seq_length; exact Hj).
            rewrite map_nth, seq_nth in Hc by exact Hj. symmetry. exact Hc. }
          subst cell. split; [ apply setw_length, width_ge; assumption | apply padded_blanks ]. }
      destruct (rows m) as [ | r ]; [ contradiction E; reflexivity | ]. destruct (cols m) as [ | c ]; [ rewrite Nat.mul_0_r in E; contradiction | exact T ].
  Qed.
  (** Results *)
  Hypothesis Ht : forall x, one_line (to_string x).
  Lemma table_homogeneous T : homogeneous T (matrix4 T).
  Proof. repeat split. Qed.
  Lemma pose_shown T : is_rot (lin T) ->
    shows_pose stream4 T (app (table_lines (matrix4 T)) ["Euler ZYX: " ++ format stream4 (row3 (eulerAngles210 (lin T)))]).
  Proof.
    intros HT. pose (e := eulerAngles210 (lin T)).
    exists (matrix4 T), (row3 e), (table_lines (matrix4 T)), (format stream4 (row3 e)), (vx e), (vy e), (vz e).
    split; [ reflexivity | ]. split; [ apply table_homogeneous | ]. split; [ exact (table_shown (matrix4 T)) | ].
    split; [ repeat split | ]. split; [ | apply euler_spec, HT ].
    rewrite format_text. exact (table_shown (row3 e)).
  Qed.
  Lemma row_format v : one_line (format stream4 (row3 v)).
  Proof. rewrite format_text. exact (Forall_inv (table_plain (row3 v))). Qed.
  Lemma format_lines m s : lines_of (format stream4 m ++ newline ++ s) = app (table_lines m) (lines_of s).
  Proof. rewrite format_text. apply lines_joined; [ apply table_some | apply table_plain ]. Qed.
  Lemma warning_text r t : sort_contract std_sort -> Forall plain_names (correlation_coeffs r) ->
    exists sel, (forall c, In c sel <-> In c (correlation_coeffs r) /\ (t < Rabs (np_value c))%R) /\
      Permutation sel (filter (fun c => if Rlt_dec t (Rabs (np_value c)) then true else false) (correlation_coeffs r)) /\
      StronglySorted (fun a b => (Rabs (np_value b) <= Rabs (np_value a))%R) sel /\
      whole_lines (printCorrelationCoeffAboveThreshold stream to_string std_sort r t) (warning_lines stream to_string t sel).
  Proof.
    intros Hc Hp. destruct (print_lines stream to_string Hs Ht std_sort r t Hc Hp) as (sel & A & B & C & D). exists sel.
    repeat (split; [ assumption | ]). unfold whole_lines. rewrite D. destruct sel; [ reflexivity | ]. unfold warning_lines. rewrite <- app_assoc. reflexivity.
  Qed.
  Lemma results_text r : sort_contract std_sort -> Forall plain_names (correlation_coeffs (kr_covariance r)) ->
    (0 <= kr_initial_cost_per_obs r)%R -> (0 <= kr_final_cost_per_obs r)%R ->
    is_rot (lin (kr_camera_mount_to_camera r)) -> is_rot (lin (kr_target_mount_to_target r)) ->
    exists c0 c1 camera target offsets sel,
      (0 <= c0)%R /\ (c0 * c0 = kr_initial_cost_per_obs r)%R /\ (0 <= c1)%R /\ (c1 * c1 = kr_final_cost_per_obs r)%R /\
      shows_pose stream4 (kr_camera_mount_to_camera r) camera /\ shows_pose stream4 (kr_target_mount_to_target r) target /\
      shown stream4 (kr_target_chain_dh_offsets r) offsets /\
      (forall c, In c sel <-> In c (correlation_coeffs (kr_covariance r)) /\ (1 / 2 < Rabs (np_value c))%R) /\
      Permutation sel (filter (fun c => if Rlt_dec (1 / 2) (Rabs (np_value c)) then true else false) (correlation_coeffs (kr_covariance r))) /\
      StronglySorted (fun a b => (Rabs (np_value b) <= Rabs (np_value a))%R) sel /\
      whole_lines (printResults stream stream4 to_string std_sort r)
        (app [""; "Calibration " ++ (if kr_converged r then "did" else "did not") ++ " converge";
              "Initial cost per observation: " ++ stream c0; "Final cost per observation: " ++ stream c1;
              ""; "Camera mount to camera"]
        (app camera (app [""; "Target mount to target"] (app target (app [""; "DH parameter offsets"] (app offsets
        (app (warning_lines stream to_string (1 / 2) sel) [""]))))))).
  Proof.
    intros Hsort Hp Hi Hf HC HT.
    replace (1 / 2)%R with (5 / 10)%R by Lra.lra.
    destruct (warning_text (kr_covariance r) (5 / 10)%R Hsort Hp) as (sel & A & B & C & D).
    exists (sqrt (kr_initial_cost_per_obs r)), (sqrt (kr_final_cost_per_obs r)). eexists. eexists. eexists. exists sel.
    split; [ apply sqrt_pos | ]. split; [ apply sqrt_sqrt, Hi | ]. split; [ apply sqrt_pos | ]. split; [ apply sqrt_sqrt, Hf | ].
    split; [ apply (pose_shown _ HC) | ]. split; [ apply (pose_shown _ HT) | ]. split; [ apply table_shown | ].
    do 3 (split; [ assumption | ]).
    unfold whole_lines, printResults.
    change (newline ++ ?x) with ("" ++ newline ++ x) at 1. rewrite lines_line by exact I.
    assert (L : forall a b s, one_line a -> one_line b -> lines_of (a ++ b ++ newline ++ s) = (a ++ b) :: lines_of s).
    { intros a b s Ha Hb. rewrite <- append_assoc. apply lines_line, one_line_app; assumption. }
    assert (L3 : forall a b c s, one_line a -> one_line b -> one_line c -> lines_of (a ++ b ++ c ++ newline ++ s) = (a ++ b ++ c) :: lines_of s).
    { intros a b c s Ha Hb Hc. rewrite <- (append_assoc b), <- append_assoc. apply lines_line. repeat apply one_line_app; assumption. }
    rewrite L3 by (destruct (kr_converged r); plain). rewrite L by (try apply Hs; plain). rewrite L by (try apply Hs; plain).
    assert (N : forall s, lines_of (newline ++ s) = "" :: lines_of s) by reflexivity.
    rewrite N, lines_line by plain. rewrite format_lines, L by (try apply row_format; plain).
    rewrite N, lines_line by plain. rewrite format_lines, L by (try apply row_format; plain).
    rewrite N, lines_line by plain. rewrite format_lines. rewrite (lines_whole _ _ _ D).
    cbn [app]. rewrite <- !app_assoc. cbn [app]. rewrite <- !app_assoc. cbn [app]. rewrite <- !app_assoc. reflexivity.
  Qed.
  (** The example *)
  Lemma stats_text s t : lines_of (stats_print stream s ++ t) = app (stats_lines stream s) (lines_of t).
  Proof.
    apply lines_whole. unfold whole_lines, stats_print, stats_lines.
    assert (L : forall a b s, one_line a -> one_line b -> lines_of (a ++ b ++ newline ++ s) = (a ++ b) :: lines_of s).
    { intros a b s0 Ha Hb. rewrite <- append_assoc. apply lines_line, one_line_app; assumption. }
    rewrite !L by (try apply Hs; plain). reflexivity.
  Qed.
  Lemma percent_text a b c d : lines_of (percent_print stream_opt [a; b; c; d]) =
    ["Position: " ++ stream_opt a ++ "%"; "Position Std. Dev.: " ++ stream_opt b ++ "%";
     "Orientation: " ++ stream_opt c ++ "%"; "Orientation Std. Dev.: " ++ stream_opt d ++ "%"; ""; ""].
  Proof.
    unfold percent_print.
    assert (L3 : forall a b c s, one_line a -> one_line b -> one_line c -> lines_of (a ++ b ++ c ++ newline ++ s) = (a ++ b ++ c) :: lines_of s).
    { intros a' b' c' s Ha Hb Hc. rewrite <- (append_assoc b'), <- append_assoc. apply lines_line. repeat apply one_line_app; assumption. }
    rewrite !L3 by (try apply Ho; plain). reflexivity.
  Qed.
  Lemma example_text p1 p2 l1 l2 r r1 r2 a b c d : whole_lines p1 l1 -> whole_lines p2 l2 ->
    whole_lines (printResults stream stream4 to_string std_sort (rp_optimal r)) r1 ->
    whole_lines (printResults stream stream4 to_string std_sort (rp_static r)) r2 ->
    rp_improvement r = [a; b; c; d] ->
    whole_lines (example_print stream stream4 to_string stream_opt std_sort p1 p2 r)
      (app ["Starting kinematic calibration optimization..."] (app l1 (app r1
      (app ["DH calibration validation:"] (app (stats_lines stream (rp_optimal_stats r)) (app l2 (app r2
      (app ["Calibration validation - static DH parameters:"] (app (stats_lines stream (rp_static_stats r))
       ["Percent improvement: calibration vs. nominal kinematic model";
        "Position: " ++ stream_opt a ++ "%"; "Position Std. Dev.: " ++ stream_opt b ++ "%";
        "Orientation: " ++ stream_opt c ++ "%"; "Orientation Std. Dev.: " ++ stream_opt d ++ "%"; ""]))))))))).
  Proof.
    intros H1 H2 R1 R2 E. unfold example_print, whole_lines. rewrite E, lines_line by plain.
    rewrite (lines_whole _ _ _ H1), (lines_whole _ _ _ R1), lines_line by plain. rewrite stats_text.
    rewrite (lines_whole _ _ _ H2), (lines_whole _ _ _ R2), lines_line by plain. rewrite stats_text, lines_line by plain. rewrite percent_text.
    repeat (rewrite <- !app_assoc; cbn [app]). reflexivity.
  Qed.
  Lemma table_text m : exists ls, shown stream4 m ls /\ whole_lines (format stream4 m ++ newline) ls.
  Proof. exists (table_lines m). split; [ apply table_shown | ]. unfold whole_lines. rewrite <- (append_nil newline), format_lines. reflexivity. Qed.
  Lemma run_text load server f s1 s2 run1 run2 rep p1 p2 l1 l2 r1 r2 :
    kinematicExample load server (Some f) s1 s2 run1 run2 = Ok (Some rep) ->
    whole_lines p1 l1 -> whole_lines p2 l2 ->
    whole_lines (printResults stream stream4 to_string std_sort (rp_optimal rep)) r1 ->
    whole_lines (printResults stream stream4 to_string std_sort (rp_static rep)) r2 ->
    let opt := rp_optimal_stats rep in let sta := rp_static_stats rep in
    exists a b c d,
      improvement (pos_mean sta) (pos_mean opt) a /\ improvement (pos_stdev sta) (pos_stdev opt) b /\
      improvement (rot_mean sta) (rot_mean opt) c /\ improvement (rot_stdev sta) (rot_stdev opt) d /\
      whole_lines (example_print stream stream4 to_string stream_opt std_sort p1 p2 rep)
        (app ["Starting kinematic calibration optimization..."] (app l1 (app r1
        (app ["DH calibration validation:"] (app (stats_lines stream opt) (app l2 (app r2
        (app ["Calibration validation - static DH parameters:"] (app (stats_lines stream sta)
         ["Percent improvement: calibration vs. nominal kinematic model";
          "Position: " ++ stream_opt a ++ "%"; "Position Std. Dev.: " ++ stream_opt b ++ "%";
          "Orientation: " ++ stream_opt c ++ "%"; "Orientation Std. Dev.: " ++ stream_opt d ++ "%"; ""]))))))))).
  Proof.
    intros H P1 P2 R1 R2 opt sta. apply example_inv in H as (ms & g1 & g2 & _ & _ & _ & _ & _ & _ & _ & I).
    unfold percentDiff in I.
    do 4 eexists. do 4 (split; [ apply percent_improvement | ]). apply example_text; assumption.
  Qed.
End Text.
(** Objects for the examples *)
Definition ex_matrix : matrix := Mat 2 2 (fun i j => if Nat.eqb i j then 1%R else 0%R).
Definition ex_stream : R -> string := fun x => if Rlt_dec x 1 then "0.25" else "1".
Definition ex_results : kin_result :=
  KR true 4 1 iso_id iso_id iso_id ex_matrix ex_matrix
     (CR [] [NP ("a", "b") 1] [NP ("a", "b") 1] (Mat 0 0 (fun _ _ => 0%R)) (Mat 0 0 (fun _ _ => 0%R))).
Lemma ex_stream_fits : (forall x, one_line (ex_stream x)) /\ (forall x, lacks tab_char (ex_stream x)) /\ (forall x, lacks bar (ex_stream x)).
Proof. repeat apply conj; intros x; unfold ex_stream; destruct (Rlt_dec x 1); plain. Qed.
Lemma ex_format : format ex_stream ex_matrix = "|   1|0.25|" ++ newline ++ "|0.25|   1|".
Proof.
  unfold format, format_row, format_width, setw, ex_matrix, ex_stream. cbn.
  destruct (Rlt_dec 1 1) as [ H | H ]; [ exfalso; Lra.lra | ]. destruct (Rlt_dec 0 1) as [ H' | H' ]; [ reflexivity | exfalso; Lra.lra ].
Qed.
Lemma ex_results_fit : sort_contract (@insertion_sort named_param) /\ Forall plain_names (correlation_coeffs (kr_covariance ex_results)) /\
  (0 <= kr_initial_cost_per_obs ex_results)%R /\ (0 <= kr_final_cost_per_obs ex_results)%R /\
  is_rot (lin (kr_camera_mount_to_camera ex_results)) /\ is_rot (lin (kr_target_mount_to_target ex_results)).
Proof.
  split; [ exact insertion_sort_contract | ]. split; [ repeat constructor; cbn; repeat split; discriminate | ].
  cbn [kr_initial_cost_per_obs kr_final_cost_per_obs ex_results]. split; [ Lra.lra | ]. split; [ Lra.lra | ].
  split; exact is_rot_I.
Qed.
