(** Circle detector: grouping, thresholds, filters. *)
From Coq Require Import Reals Lra Lia Arith Bool List Permutation.
From Verif.Base Require Import Geom Outcome.
From Verif.Model Require Import CircleDetector.
From Verif.Spec Require Import DetectorSpec.
From Verif.Proofs Require Import GeomLemmas ListLemmas TargetProofs.
Import ListNotations.
Local Open Scope R_scope.

Lemma rltb_true a b : rltb a b = true <-> a < b.
Proof. unfold rltb. destruct (Rlt_dec a b); split; intros; congruence || lra. Qed.
Lemma rleb_true a b : rleb a b = true <-> a <= b.
Proof. unfold rleb. destruct (Rle_dec a b); split; intros; congruence || lra. Qed.
Lemma same_near p a b : same_circle p a b = true <-> near p a b.
Proof. unfold same_circle, near. cbv zeta. rewrite andb_true_iff, !rleb_true. reflexivity. Qed.
Lemma same_not_near p a b : same_circle p a b = false <-> ~ near p a b.
Proof. rewrite <- same_near. destruct (same_circle p a b); split; intros; congruence. Qed.

(** ** Groups *)

Lemma exists_spec p c gs : (forall g, In g gs -> g <> []) ->
  match exists_ p c gs with
  | Some i => (exists h rest, nth_error gs i = Some (h :: rest) /\ near p h c) /\ forall j h, (j < i)%nat -> group_head gs j h -> ~ near p h c
  | None => forall j h, group_head gs j h -> ~ near p h c
  end.
Proof.
  induction gs as [ | g r IH]; intros N; cbn [exists_].
  - intros j h [rest H]. destruct j; discriminate.
  - destruct g as [ | h0 rest0]; [ exfalso; apply (N []); [ left; reflexivity | reflexivity ] | ].
    destruct (same_circle p h0 c) eqn:E.
    + apply same_near in E. split; [ exists h0, rest0; split; [ reflexivity | exact E ] | intros; lia ].
    + apply same_not_near in E. assert (N' : forall g, In g r -> g <> []) by (intros g Hg; apply N; right; exact Hg). specialize (IH N').
      destruct (exists_ p c r) as [i | ]; cbn [option_map].
      * destruct IH as [A B]. split; [ exact A | ]. intros [ | j] h Hj [rest H]; cbn in H; [ injection H as -> ->; exact E | ].
        apply (B j h); [ lia | exists rest; exact H ].
      * intros [ | j] h [rest H]; cbn in H; [ injection H as -> ->; exact E | ]. apply (IH j h). exists rest. exact H.
Qed.
Lemma push_at_spec {A} (l : list (list A)) i c g : nth_error l i = Some g ->
  exists l', push_at l i c = Ok l' /\ length l' = length l /\ nth_error l' i = Some (g ++ [c]) /\
    (forall j, j <> i -> nth_error l' j = nth_error l j) /\ Permutation (concat l') (concat l ++ [c]).
Proof.
  revert i. induction l as [ | x r IH]; intros i H; [ destruct i; discriminate | ]. destruct i as [ | i]; cbn in H.
  - injection H as ->. cbn. eexists. split; [ reflexivity | ]. split; [ reflexivity | ]. split; [ reflexivity | ]. split.
    + intros [ | j] Hj; [ congruence | reflexivity ].
    + cbn. rewrite <- !app_assoc. apply Permutation_app_head. apply Permutation_app_comm.
  - destruct (IH i H) as (l' & E & L & Ni & Nj & P). cbn [push_at]. rewrite E. cbn [bind]. eexists. split; [ reflexivity | ].
    split; [ cbn; rewrite L; reflexivity | ]. split; [ exact Ni | ]. split.
    + intros [ | j] Hj; [ reflexivity | ]. cbn. apply Nj. congruence.
    + cbn. rewrite <- app_assoc. apply Permutation_app_head. exact P.
Qed.
Lemma group_step_ok p gs c : well_grouped p gs ->
  exists gs', group_step p gs c = Ok gs' /\ well_grouped p gs' /\ Permutation (concat gs') (concat gs ++ [c]).
Proof.
  intros (N & W & S). unfold group_step. pose proof (exists_spec p c gs N) as X. destruct (exists_ p c gs) as [i | ].
  - destruct X as ((h & rest & Hi & Hn) & Hj). destruct (push_at_spec gs i c (h :: rest) Hi) as (gs' & E & L & Ni & Nj & P).
    exists gs'. split; [ exact E | ]. split; [ | exact P ].
    assert (Heads : forall j x, group_head gs' j x -> group_head gs j x).
    { intros j x [r Hr]. destruct (Nat.eq_dec j i) as [-> | D]; [ | exists r; rewrite <- Nj by exact D; exact Hr ].
      rewrite Ni in Hr. cbn in Hr. injection Hr as <- _. exists rest. exact Hi. }
    split; [ | split ].
    + intros g Hg. apply In_nth_error in Hg. destruct Hg as [j Hg]. destruct (Nat.eq_dec j i) as [-> | D].
      * rewrite Ni in Hg. injection Hg as <-. cbn. discriminate.
      * rewrite Nj in Hg by exact D. apply N. eapply nth_error_In. exact Hg.
    + intros j h' rest' c' Hg Hc. destruct (Nat.eq_dec j i) as [-> | D].
      * rewrite Ni in Hg. cbn in Hg. injection Hg as <- <-. apply in_app_or in Hc. destruct Hc as [Hc | [<- | []]]; [ | exact Hn ].
        eapply W; eassumption.
      * rewrite Nj in Hg by exact D. eapply W; eassumption.
    + intros a b h' g c' Hab Hh Hg Hc. apply Heads in Hh. destruct (Nat.eq_dec b i) as [-> | D].
      * rewrite Ni in Hg. injection Hg as <-. change (In c' ((h :: rest) ++ [c])) in Hc. apply in_app_or in Hc. destruct Hc as [Hc | [<- | []]].
        { eapply S; eassumption. } { eapply Hj; eassumption. }
      * rewrite Nj in Hg by exact D. eapply S; eassumption.
  - exists (gs ++ [[c]]). split; [ reflexivity | ]. split; [ | rewrite concat_app; cbn; apply Permutation_refl ].
    assert (Heads : forall j x, group_head (gs ++ [[c]]) j x -> group_head gs j x \/ (j = length gs /\ x = c)).
    { intros j x [r Hr]. destruct (Nat.lt_ge_cases j (length gs)) as [L | L].
      - left. rewrite nth_error_app1 in Hr by exact L. exists r. exact Hr.
      - rewrite nth_error_app2 in Hr by exact L. destruct (j - length gs)%nat as [ | k] eqn:Ek; cbn in Hr; [ | destruct k; discriminate ].
        injection Hr as <- _. right. split; [ lia | reflexivity ]. }
    split; [ | split ].
    + intros g Hg. apply in_app_or in Hg. destruct Hg as [Hg | [<- | []]]; [ apply N; exact Hg | discriminate ].
    + intros j h rest c' Hg Hc. destruct (Nat.lt_ge_cases j (length gs)) as [L | L].
      * rewrite nth_error_app1 in Hg by exact L. eapply W; eassumption.
      * rewrite nth_error_app2 in Hg by exact L. destruct (j - length gs)%nat as [ | k]; cbn in Hg; [ | destruct k; discriminate ].
        injection Hg as <- <-. destruct Hc.
    + intros a b h g c' Hab Hh Hg Hc. apply Heads in Hh. destruct (Nat.lt_ge_cases b (length gs)) as [L | L].
      * rewrite nth_error_app1 in Hg by exact L. destruct Hh as [Hh | [-> _]]; [ | lia ]. exact (S a b h g c' Hab Hh Hg Hc).
      * rewrite nth_error_app2 in Hg by exact L. destruct (b - length gs)%nat as [ | k] eqn:Ek; cbn in Hg; [ | destruct k; discriminate ].
        injection Hg as <-. destruct Hc as [<- | []]. destruct Hh as [Hh | [-> _]]; [ eapply X; exact Hh | lia ].
Qed.
Lemma group_many_ok p cs gs : well_grouped p gs ->
  exists gs', foldM (group_step p) cs gs = Ok gs' /\ well_grouped p gs' /\ Permutation (concat gs') (concat gs ++ cs).
Proof.
  revert gs. induction cs as [ | c r IH]; intros gs W; cbn [foldM].
  - exists gs. rewrite app_nil_r. auto.
  - destruct (group_step_ok p gs c W) as (g1 & -> & W1 & P1). cbn [bind]. destruct (IH g1 W1) as (g2 & E2 & W2 & P2).
    exists g2. split; [ exact E2 | ]. split; [ exact W2 | ]. eapply Permutation_trans; [ exact P2 | ]. eapply Permutation_trans; [ apply Permutation_app_tail; exact P1 | ]. rewrite <- app_assoc. apply Permutation_refl.
Qed.
Lemma groups_spec p all : exists gs, group_centers p all = Ok gs /\ well_grouped p gs /\ Permutation (concat gs) (concat all).
Proof.
  unfold group_centers. assert (X : forall gs, well_grouped p gs ->
    exists gs', foldM (fun g centers => foldM (group_step p) centers g) all gs = Ok gs' /\ well_grouped p gs' /\ Permutation (concat gs') (concat gs ++ concat all)).
  { induction all as [ | cs r IH]; intros gs W; cbn [foldM].
    - exists gs. cbn. rewrite app_nil_r. auto.
    - destruct (group_many_ok p cs gs W) as (g1 & -> & W1 & P1). cbn [bind]. destruct (IH g1 W1) as (g2 & E2 & W2 & P2).
      exists g2. split; [ exact E2 | ]. split; [ exact W2 | ]. eapply Permutation_trans; [ exact P2 | ]. eapply Permutation_trans; [ apply Permutation_app_tail; exact P1 | ]. cbn [concat]. rewrite <- app_assoc. apply Permutation_refl. }
  apply (X []). split; [ intros g [] | ]. split; intros i; intros; destruct i; try discriminate.
  - destruct H0 as [? H0]. discriminate.
  - destruct H0 as [? H0]. discriminate.
Qed.

(** ** Keypoints *)

Lemma sum_push {A} (f : A -> R) l a : fold_left (fun s x => s + f x) l a = a + sum_of f l.
Proof. revert a. induction l as [ | x r IH]; intros a; cbn; [ ring | ]. rewrite IH. unfold sum_of. ring. Qed.
Lemma group_sums g sx sy sr n :
  fold_left (fun '(sx, sy, sr, n) c => (sx + c_confidence c * px (c_location c), sy + c_confidence c * py (c_location c),
     sr + c_confidence c * c_radius c, n + c_confidence c)) g (sx, sy, sr, n) =
  (sx + sum_of (fun c => c_confidence c * px (c_location c)) g, sy + sum_of (fun c => c_confidence c * py (c_location c)) g,
   sr + sum_of (fun c => c_confidence c * c_radius c) g, n + sum_of c_confidence g).
Proof.
  revert sx sy sr n. induction g as [ | c r IH]; intros; cbn [fold_left]; [ cbn; rewrite !Rplus_0_r; reflexivity | ]. rewrite IH. unfold sum_of; cbn [fold_right].
  f_equal; [ f_equal; [ f_equal | ] | ]; ring.
Qed.
Lemma keypoint_spec g : sum_of c_confidence g <> 0 ->
  group_keypoint g = Ok (KP (V2 (weighted (fun c => px (c_location c)) g) (weighted (fun c => py (c_location c)) g)) (2 * weighted c_radius g)).
Proof.
  intros N. unfold group_keypoint. rewrite group_sums. rewrite !Rplus_0_l. destruct (Req_EM_T _ _) as [E | _]; [ congruence | ].
  unfold weighted. f_equal. f_equal. ring.
Qed.
Lemma keypoint_undefined g : sum_of c_confidence g = 0 -> group_keypoint g = UB.
Proof. intros N. unfold group_keypoint. rewrite group_sums, !Rplus_0_l, N. destruct (Req_EM_T 0 0); [ reflexivity | congruence ]. Qed.
Lemma sum_pos {A} (f : A -> R) l : l <> [] -> (forall a, In a l -> 0 < f a) -> 0 < sum_of f l.
Proof.
  destruct l as [ | a r]; [ congruence | ]. intros _ H. unfold sum_of. cbn. assert (0 <= fold_right (fun a s => f a + s) 0 r).
  { assert (forall b, In b r -> 0 < f b) by (intros; apply H; right; assumption). clear -H0. induction r as [ | b r IH]; cbn; [ lra | ].
    assert (0 < f b) by (apply H0; left; reflexivity). assert (forall b, In b r -> 0 < f b) by (intros; apply H0; right; assumption). specialize (IH H1). lra. }
  specialize (H a (or_introl eq_refl)). lra.
Qed.
Lemma detect_keypoints_unfold all p gs : group_centers p all = Ok gs ->
  detectKeyPoints all p = mapM group_keypoint (filter (fun g => Nat.leb (minRepeatability p) (length g)) gs).
Proof.
  intros E. unfold detectKeyPoints. rewrite E. cbn [bind].
  assert (X : forall acc, foldM (fun keypoints g => if Nat.leb (minRepeatability p) (length g) then do k <- group_keypoint g; Ok (keypoints ++ [k]) else Ok keypoints) gs acc =
    (do ks <- mapM group_keypoint (filter (fun g => Nat.leb (minRepeatability p) (length g)) gs); Ok (acc ++ ks))).
  { clear E. induction gs as [ | g r IH]; intros acc; cbn [foldM filter]; [ cbn; rewrite app_nil_r; reflexivity | ].
    destruct (Nat.leb (minRepeatability p) (length g)); cbn [bind mapM]; [ | apply IH ].
    destruct (group_keypoint g) as [k | | ]; cbn [bind]; try reflexivity. rewrite IH. destruct (mapM _ _); cbn [bind]; try reflexivity. rewrite <- app_assoc. reflexivity. }
  rewrite X. destruct (mapM _ _); reflexivity.
Qed.

(** ** A weighted mean stays in the disc *)

Lemma norm2_sq a : norm2 a * norm2 a = px a * px a + py a * py a.
Proof. unfold norm2. apply sqrt_sqrt. pose proof (Rle_0_sqr (px a)). pose proof (Rle_0_sqr (py a)). unfold Rsqr in *. lra. Qed.
Lemma norm2_nonneg a : 0 <= norm2 a.
Proof. apply sqrt_pos. Qed.
Lemma norm2_le a r : 0 <= r -> px a * px a + py a * py a <= r * r -> norm2 a <= r.
Proof. intros Hr H. unfold norm2. rewrite <- (sqrt_square r) by exact Hr. apply sqrt_le_1_alt. exact H. Qed.
Lemma norm2_triangle a b : norm2 (V2 (px a + px b) (py a + py b)) <= norm2 a + norm2 b.
Proof.
  pose proof (norm2_nonneg a). pose proof (norm2_nonneg b). pose proof (norm2_sq a) as A. pose proof (norm2_sq b) as B.
  apply norm2_le; [ lra | ]. cbn [px py].
  assert (C : px a * px b + py a * py b <= norm2 a * norm2 b).
  { destruct (Rle_lt_dec (px a * px b + py a * py b) 0) as [L | L]; [ pose proof (Rmult_le_pos _ _ H H0); lra | ].
    apply Rsqr_incr_0_var; [ | apply Rmult_le_pos; assumption ]. unfold Rsqr.
    replace (norm2 a * norm2 b * (norm2 a * norm2 b)) with ((norm2 a * norm2 a) * (norm2 b * norm2 b)) by ring. rewrite A, B.
    pose proof (Rle_0_sqr (px a * py b - py a * px b)) as S. unfold Rsqr in S. lra. }
  lra.
Qed.
Lemma norm2_scale k a : 0 <= k -> norm2 (V2 (k * px a) (k * py a)) = k * norm2 a.
Proof.
  intros Hk. unfold norm2. cbn [px py]. replace (k * px a * (k * px a) + k * py a * (k * py a)) with (k * k * (px a * px a + py a * py a)) by ring.
  rewrite sqrt_mult_alt by nra. rewrite sqrt_square by exact Hk. reflexivity.
Qed.
Lemma sum_sub {A} (w f : A -> R) h l : sum_of (fun c => w c * f c) l - sum_of w l * h = sum_of (fun c => w c * (f c - h)) l.
Proof. induction l as [ | c r IH]; unfold sum_of in *; cbn; [ ring | ]. rewrite <- IH. ring. Qed.
Lemma sum_disc (w : center -> R) r h l : (forall c, In c l -> 0 <= w c) ->
  (forall c, In c l -> norm2 (v2sub h (c_location c)) <= r) ->
  norm2 (V2 (sum_of (fun c => w c * (px h - px (c_location c))) l) (sum_of (fun c => w c * (py h - py (c_location c))) l)) <= sum_of w l * r.
Proof.
  induction l as [ | c l IH]; intros W D.
  - unfold sum_of. cbn. unfold norm2. cbn. rewrite Rmult_0_l, Rplus_0_l, sqrt_0. lra.
  - unfold sum_of in *. cbn [fold_right].
    set (X := V2 (w c * (px h - px (c_location c))) (w c * (py h - py (c_location c)))).
    set (Y := V2 (fold_right (fun a s => w a * (px h - px (c_location a)) + s) 0 l) (fold_right (fun a s => w a * (py h - py (c_location a)) + s) 0 l)).
    pose proof (norm2_triangle X Y) as T. cbn [X Y px py] in T.
    assert (IHl : norm2 Y <= fold_right (fun a s => w a + s) 0 l * r) by (apply IH; intros; [ apply W | apply D ]; right; assumption).
    assert (NX : norm2 X <= w c * r).
    { unfold X. change (norm2 (V2 (w c * px (v2sub h (c_location c))) (w c * py (v2sub h (c_location c)))) <= w c * r).
      rewrite norm2_scale by (apply W; left; reflexivity). apply Rmult_le_compat_l; [ apply W; left; reflexivity | apply D; left; reflexivity ]. }
    lra.
Qed.
Lemma mean_in_disc p h rest : 0 <= circleInclusionRadius p -> 0 <= maxRadiusDiff p ->
  (forall c, In c (h :: rest) -> 0 < c_confidence c) -> (forall c, In c rest -> near p h c) ->
  let g := h :: rest in
  norm2 (v2sub (c_location h) (V2 (weighted (fun c => px (c_location c)) g) (weighted (fun c => py (c_location c)) g))) <= circleInclusionRadius p /\
  Rabs (c_radius h - weighted c_radius g) <= maxRadiusDiff p.
Proof.
  intros R0 D0 Wp N g. assert (S : 0 < sum_of c_confidence g) by (apply sum_pos; [ discriminate | exact Wp ]).
  assert (All : forall c, In c g -> near p h c).
  { intros c [<- | Hc]; [ | apply N; exact Hc ]. split.
    - unfold v2sub, norm2. cbn. rewrite !Rminus_diag_eq by reflexivity. rewrite Rmult_0_l, Rplus_0_l, sqrt_0. exact R0.
    - rewrite Rminus_diag_eq by reflexivity. rewrite Rabs_R0. exact D0. }
  split.
  - pose proof (sum_disc c_confidence (circleInclusionRadius p) (c_location h) g) as T.
    specialize (T (fun c Hc => Rlt_le _ _ (Wp c Hc)) (fun c Hc => proj1 (All c Hc))).
    set (s := sum_of c_confidence g) in *.
    assert (E : v2sub (c_location h) (V2 (weighted (fun c => px (c_location c)) g) (weighted (fun c => py (c_location c)) g)) =
      V2 (/ s * sum_of (fun c => c_confidence c * (px (c_location h) - px (c_location c))) g)
         (/ s * sum_of (fun c => c_confidence c * (py (c_location h) - py (c_location c))) g)).
    { unfold v2sub. cbn [px py]. unfold weighted. fold s.
      assert (Z : forall f x, sum_of (fun c => c_confidence c * (x - f c)) g = s * x - sum_of (fun c => c_confidence c * f c) g).
      { intros f x. unfold s. clear. induction g as [ | c r IH]; unfold sum_of in *; cbn; [ ring | ]. rewrite IH. ring. }
      rewrite (Z (fun c => px (c_location c))), (Z (fun c => py (c_location c))). f_equal; field; lra. }
    rewrite E. assert (Is : 0 < / s) by (apply Rinv_0_lt_compat; exact S).
    pose proof (norm2_scale (/ s) (V2 (sum_of (fun c => c_confidence c * (px (c_location h) - px (c_location c))) g) (sum_of (fun c => c_confidence c * (py (c_location h) - py (c_location c))) g)) (Rlt_le _ _ Is)) as Sc.
    cbn [px py] in Sc. rewrite Sc. apply Rmult_le_reg_l with s; [ exact S | ]. rewrite <- Rmult_assoc, Rinv_r, Rmult_1_l by lra. exact T.
  - set (s := sum_of c_confidence g) in *.
    assert (Z : s * c_radius h - sum_of (fun c => c_confidence c * c_radius c) g = sum_of (fun c => c_confidence c * (c_radius h - c_radius c)) g).
    { unfold s. clear. induction g as [ | c r IH]; unfold sum_of in *; cbn; [ ring | ]. rewrite <- IH. ring. }
    assert (B : Rabs (sum_of (fun c => c_confidence c * (c_radius h - c_radius c)) g) <= s * maxRadiusDiff p).
    { unfold s. clear -Wp All. fold g in Wp. clearbody g. induction g as [ | c r IH]; unfold sum_of in *; cbn; [ rewrite Rabs_R0; lra | ].
      eapply Rle_trans; [ apply Rabs_triang | ]. rewrite Rmult_plus_distr_r. apply Rplus_le_compat.
      - assert (Hc : 0 < c_confidence c) by (apply Wp; left; reflexivity). rewrite Rabs_mult, (Rabs_right (c_confidence c)) by lra.
        apply Rmult_le_compat_l; [ lra | ]. apply All. left. reflexivity.
      - apply IH; intros; [ apply Wp | apply All ]; right; assumption. }
    unfold weighted. fold s. replace (c_radius h - sum_of (fun c => c_confidence c * c_radius c) g / s)
      with (/ s * (s * c_radius h - sum_of (fun c => c_confidence c * c_radius c) g)) by (field; lra).
    rewrite Z, Rabs_mult. assert (Is : 0 < / s) by (apply Rinv_0_lt_compat; exact S). rewrite (Rabs_right (/ s)) by lra.
    apply Rmult_le_reg_l with s; [ exact S | ]. rewrite <- Rmult_assoc, Rinv_r, Rmult_1_l by lra. exact B.
Qed.

(** ** All together *)

Lemma keypoints_spec p all ks gs : group_centers p all = Ok gs -> detectKeyPoints all p = Ok ks ->
  Forall2 (fun g k =>
      kp_pt k = V2 (weighted (fun c => px (c_location c)) g) (weighted (fun c => py (c_location c)) g) /\
      kp_size k = 2 * weighted c_radius g) (repeated p gs) ks.
Proof.
  intros E H. rewrite (detect_keypoints_unfold all p gs E) in H. eapply mapM_forall2; [ exact H | ]. intros g k _ Hk.
  destruct (Req_EM_T (sum_of c_confidence g) 0) as [Z | Z]; [ rewrite keypoint_undefined in Hk by exact Z; discriminate | ].
  rewrite keypoint_spec in Hk by exact Z. injection Hk as <-. split; reflexivity.
Qed.
Lemma in_group_all p all gs g c : group_centers p all = Ok gs -> In g gs -> In c g -> In c (concat all).
Proof.
  intros E Hg Hc. destruct (groups_spec p all) as (gs' & E' & _ & P). rewrite E in E'. injection E' as <-.
  eapply Permutation_in; [ exact P | ]. apply in_concat. exists g. auto.
Qed.
Lemma keypoints_defined p all : (forall c, In c (concat all) -> 0 < c_confidence c) -> exists ks, detectKeyPoints all p = Ok ks.
Proof.
  intros Wp. destruct (groups_spec p all) as (gs & E & (N & _) & P). rewrite (detect_keypoints_unfold all p gs E).
  apply mapM_ok_iff. intros g Hg. apply filter_In in Hg. destruct Hg as [Hg _]. eexists. apply keypoint_spec. apply Rgt_not_eq. apply sum_pos; [ apply N; exact Hg | ].
  intros c Hc. apply Wp. eapply in_group_all; eassumption.
Qed.
Lemma keypoints_close p all ks gs : 0 <= circleInclusionRadius p -> 0 <= maxRadiusDiff p ->
  (forall c, In c (concat all) -> 0 < c_confidence c) ->
  group_centers p all = Ok gs -> detectKeyPoints all p = Ok ks ->
  Forall2 (fun g k => exists h rest, g = h :: rest /\ norm2 (v2sub (c_location h) (kp_pt k)) <= circleInclusionRadius p /\
     Rabs (c_radius h - kp_size k / 2) <= maxRadiusDiff p) (repeated p gs) ks.
Proof.
  intros R0 D0 Wp E H. pose proof (keypoints_spec p all ks gs E H) as F.
  destruct (groups_spec p all) as (gs' & E' & (N & W & _) & P). rewrite E in E'. injection E' as <-.
  assert (X : forall g, In g (repeated p gs) -> exists h rest, g = h :: rest /\ (forall c, In c rest -> near p h c) /\ forall c, In c g -> 0 < c_confidence c).
  { intros g Hg. apply filter_In in Hg. destruct Hg as [Hg _]. destruct g as [ | h rest]; [ exfalso; exact (N [] Hg eq_refl) | ]. exists h, rest.
    split; [ reflexivity | ]. split.
    - intros c Hc. apply In_nth_error in Hg. destruct Hg as [i Hi]. eapply W; eassumption.
    - intros c Hc. apply Wp. eapply in_group_all; eassumption. }
  clear H. revert X F. generalize (repeated p gs). intros l X F. induction F as [ | g k l ks Hk F IH]; constructor.
  - destruct (X g (or_introl eq_refl)) as (h & rest & -> & Hn & Hw). destruct Hk as [-> ->]. exists h, rest. split; [ reflexivity | ].
    destruct (mean_in_disc p h rest R0 D0 Hw Hn) as [A B]. split; [ exact A | ]. replace (2 * weighted c_radius (h :: rest) / 2) with (weighted c_radius (h :: rest)) by field. exact B.
  - apply IH. intros; apply X; right; assumption.
Qed.

(** ** Thresholds *)

Lemma thresholds_spec p : exists ts,
  length ts = nThresholds p /\
  (nThresholds p = 1%nat -> ts = [(minThreshold p + maxThreshold p) / 2]) /\
  ((2 <= nThresholds p)%nat ->
     nth_error ts 0 = Some (minThreshold p) /\ nth_error ts (nThresholds p - 1) = Some (maxThreshold p) /\
     forall i a b, nth_error ts i = Some a -> nth_error ts (i + 1) = Some b ->
       b - a = (maxThreshold p - minThreshold p) / INR (nThresholds p - 1)) /\
  forall image, applyThresholds image p =
    if Nat.ltb (nThresholds p) (minRepeatability p) then Throw RuntimeError else mapM (fun t => findCircles (image t) p) ts.
Proof.
  exists (map (threshold p) (seq 0 (nThresholds p))). split; [ rewrite map_length, seq_length; reflexivity | ]. split; [ | split ].
  - intros E. unfold threshold. rewrite E. cbn. f_equal. field.
  - intros L. assert (P : 0 < INR (nThresholds p - 1)) by (apply lt_0_INR; lia). rewrite !nth_error_map_seq. cbn [Nat.add].
    rewrite (proj2 (Nat.ltb_lt 0 _)) by lia. rewrite (proj2 (Nat.ltb_lt (nThresholds p - 1) _)) by lia.
    assert (T : forall i, threshold p i = minThreshold p + INR i / INR (nThresholds p - 1) * (maxThreshold p - minThreshold p)).
    { intros i. unfold threshold. cbv zeta. rewrite (proj2 (Nat.ltb_ge (nThresholds p) 2)) by lia. reflexivity. }
    rewrite !T. split; [ f_equal; cbn [INR]; field; lra | ]. split; [ f_equal; field; lra | ].
    intros i a b Ha Hb. rewrite nth_error_map_seq in Ha, Hb. destruct (Nat.ltb i _); [ | discriminate ]. destruct (Nat.ltb (i + 1) _); [ | discriminate ].
    injection Ha as <-. injection Hb as <-. rewrite !T. cbn [Nat.add]. rewrite plus_INR. cbn [INR]. field. lra.
  - intros image. unfold applyThresholds. destruct (Nat.ltb _ _); [ reflexivity | ].
    induction (seq 0 (nThresholds p)) as [ | i r IH]; cbn; [ reflexivity | ]. rewrite IH. reflexivity.
Qed.
